(** Proofs about patterns, rules and lock specifications. *)
From Verif Require Import Base Text Rot_Model Rot_Spec.
From Coq Require Import ZArith.
Local Open Scope list_scope.
Local Open Scope string_scope.

(** *** Parsing *)
Lemma base_irrelevant : forall r b, ~ opens r -> parse_loop r b None = parse_loop r None None.
Proof.
  intros [|c r] b H; [reflexivity|]; cbn [opens] in H; cbn [parse_loop].
  unfold get_unit; destruct (Ascii.eqb_spec c "[") as [E|_]; [contradiction|].
  destruct (Ascii.eqb c "]"); reflexivity.
Qed.

Lemma plain_eqb : forall c, plain c -> Ascii.eqb c "[" = false /\ Ascii.eqb c "]" = false.
Proof. intros c [H1 H2]; destruct (Ascii.eqb_spec c "["), (Ascii.eqb_spec c "]"); try contradiction; split; reflexivity. Qed.

Lemma parse_inside : forall v c acc r, no_brackets v ->
  parse_loop (v ++ ("]" ++ r)) (Some c) (Some acc) =
    match parse_loop r (Some c) None with Ok us => Ok (mkUnit c (Some (acc ++ v)) :: us) | Err e => Err e end.
Proof.
  induction v as [|a v IH]; intros c acc r H.
  - cbn; rewrite str_app_nil; reflexivity.
  - destruct H as [Ha H]; destruct (plain_eqb _ Ha) as [E1 E2]; cbn [String.append parse_loop]; unfold get_unit; rewrite E1, E2.
    fold (v ++ ("]" ++ r)); change (String "]" r) with ("]" ++ r).
    rewrite IH by exact H; rewrite <- str_app_assoc; cbn [String.append].
    destruct (parse_loop r (Some c) None); reflexivity.
Qed.

Lemma parse_unfinished : forall v c acc, no_brackets v -> parse_loop v (Some c) (Some acc) = Ok [].
Proof.
  induction v as [|a v IH]; intros c acc H; [reflexivity|]; destruct H as [Ha H]; destruct (plain_eqb _ Ha) as [E1 E2].
  cbn [parse_loop]; unfold get_unit; rewrite E1, E2, IH by exact H; reflexivity.
Qed.

Lemma parse_open1 : forall c r, c <> "*"%char -> parse_loop (String "[" r) (Some c) None = match parse_loop r (Some c) (Some "") with Ok us => Ok us | Err e => Err e end.
Proof. intros c r H; cbn [parse_loop]; unfold get_unit; cbn; destruct (Ascii.eqb_spec c "*"); [contradiction|reflexivity]. Qed.

Lemma parse_brackets : forall vs c r, c <> "*"%char -> Forall no_brackets vs ->
  parse_loop (brackets vs ++ r) (Some c) None =
    match parse_loop r (Some c) None with Ok us => Ok (map (fun v => mkUnit c (Some v)) vs ++ us)%list | Err e => Err e end.
Proof.
  induction vs as [|v vs IH]; intros c r Hc F; [cbn; destruct (parse_loop r (Some c) None); reflexivity|].
  inversion F as [|x l Hv F']; subst; cbn [brackets].
  replace (("[" ++ (v ++ ("]" ++ brackets vs))) ++ r) with (String "[" (v ++ ("]" ++ (brackets vs ++ r))))
    by (rewrite <- !str_app_assoc; reflexivity).
  rewrite parse_open1 by exact Hc; rewrite parse_inside by exact Hv; rewrite IH by assumption.
  destruct (parse_loop r (Some c) None); reflexivity.
Qed.

Lemma first_plain : forall c r, plain c ->
  parse_loop (String c r) None None =
    match parse_loop r (Some c) None with
    | Ok us => Ok (match r with String n _ => if Ascii.eqb n "[" then us else mkUnit c None :: us | "" => mkUnit c None :: us end)
    | Err e => Err e
    end.
Proof.
  intros c r H; destruct (plain_eqb _ H) as [E1 E2]; cbn [parse_loop]; unfold get_unit; rewrite E1, E2.
  destruct r as [|n r]; [reflexivity|]; destruct (Ascii.eqb n "["); destruct (parse_loop (String n r) (Some c) None); reflexivity.
Qed.

Lemma not_opens : forall r us c, ~ opens r ->
  match r with String n _ => if Ascii.eqb n "[" then us else mkUnit c None :: us | "" => mkUnit c None :: us end = mkUnit c None :: us.
Proof. intros [|n r] us c H; [reflexivity|]; destruct (Ascii.eqb_spec n "["); [contradiction|reflexivity]. Qed.

Lemma brackets_first : forall vs, vs <> [] -> exists r, brackets vs = String "[" r.
Proof. intros [|v vs] H; [contradiction|]; cbn; eauto. Qed.

Lemma parses_sound : forall s us, parses s us -> parse_regexp s = Ok us.
Proof.
  unfold parse_regexp; intros s us P; induction P as [|c r us Hc Ho _ IH|c vs r us Hc Hs Hv F Ho _ IH]; [reflexivity| |].
  - rewrite first_plain by exact Hc; rewrite (base_irrelevant r) by exact Ho; rewrite IH, not_opens by exact Ho; reflexivity.
  - rewrite first_plain by exact Hc; rewrite parse_brackets by assumption; rewrite (base_irrelevant r) by exact Ho; rewrite IH.
    destruct (brackets_first vs Hv) as (q & ->); reflexivity.
Qed.

Lemma opens_sound : forall s us, parses_open s us -> parse_regexp s = Ok us.
Proof.
  unfold parse_regexp; intros s us P; induction P as [c vs v Hc Hs F Hv|c r us Hc Ho _ IH|c vs r us Hc Hs Hv F Ho _ IH].
  - rewrite first_plain by exact Hc; rewrite parse_brackets by assumption.
    change ("[" ++ v) with (String "[" v); rewrite parse_open1 by exact Hs; rewrite parse_unfinished by exact Hv.
    rewrite app_nil_r; destruct vs as [|w vs]; [reflexivity|]; reflexivity.
  - rewrite first_plain by exact Hc; rewrite (base_irrelevant r) by exact Ho; rewrite IH, not_opens by exact Ho; reflexivity.
  - rewrite first_plain by exact Hc; rewrite parse_brackets by assumption; rewrite (base_irrelevant r) by exact Ho; rewrite IH.
    destruct (brackets_first vs Hv) as (q & ->); reflexivity.
Qed.

(** Scanning a bracketed value. *)
Lemma scan_inside : forall r c acc us, parse_loop r (Some c) (Some acc) = Ok us ->
  (no_brackets r /\ us = []) \/
  exists v r' us', r = v ++ ("]" ++ r') /\ no_brackets v /\ us = mkUnit c (Some (acc ++ v)) :: us' /\ parse_loop r' (Some c) None = Ok us'.
Proof.
  induction r as [|a r IH]; intros c acc us E; [left; injection E as <-; split; [exact I|reflexivity]|].
  cbn [parse_loop] in E; unfold get_unit in E.
  destruct (Ascii.eqb_spec a "[") as [Ea|Ha1]; [discriminate|]; destruct (Ascii.eqb_spec a "]") as [Ea|Ha2].
  - destruct (parse_loop r (Some c) None) as [us'|] eqn:Er; [|discriminate]; injection E as <-.
    right; exists "", r, us'; subst a; split; [reflexivity|]; split; [exact I|]; split; [rewrite str_app_nil; reflexivity|exact Er].
  - destruct (parse_loop r (Some c) (Some (acc ++ String a ""))) as [us'|] eqn:Er; [|discriminate]; injection E as <-.
    destruct (IH _ _ _ Er) as [[N ->]|(v & r' & us2 & -> & Nv & -> & Hr)].
    + left; split; [split; [split; assumption|exact N]|reflexivity].
    + right; exists (String a v), r', us2; split; [reflexivity|]; split; [split; [split; assumption|exact Nv]|].
      split; [rewrite <- str_app_assoc; reflexivity|exact Hr].
Qed.

Lemma app_len : forall a b : string, String.length (a ++ b) = String.length a + String.length b.
Proof. induction a as [|x a IH]; intros b; [reflexivity|]; cbn; rewrite IH; reflexivity. Qed.

Definition opens_dec : forall r, {opens r} + {~ opens r}.
Proof. intros [|n r]; [right; intros []|]; cbn; apply ascii_dec. Defined.

Lemma scan_brackets : forall n r c us, String.length r <= n -> c <> "*"%char -> parse_loop r (Some c) None = Ok us ->
  exists vs, Forall no_brackets vs /\
    ((exists v, r = brackets vs ++ ("[" ++ v) /\ no_brackets v /\ us = map (fun v => mkUnit c (Some v)) vs) \/
     (exists r' us', r = brackets vs ++ r' /\ ~ opens r' /\ us = (map (fun v => mkUnit c (Some v)) vs ++ us')%list /\ parse_loop r' (Some c) None = Ok us')).
Proof.
  induction n as [|n IH]; intros r c us L Hc E.
  - destruct r; [|cbn in L; lia]; exists []; split; [constructor|]; right; exists "", us; split; [reflexivity|]; split; [intros []|]; split; [reflexivity|exact E].
  - destruct (opens_dec r) as [Ho|Ho].
    + destruct r as [|a r]; [destruct Ho|]; cbn in Ho; subst a; rewrite parse_open1 in E by exact Hc.
      destruct (parse_loop r (Some c) (Some "")) as [us0|] eqn:Er; [|discriminate]; injection E as <-.
      destruct (scan_inside _ _ _ _ Er) as [[N ->]|(v & r' & us' & -> & Nv & -> & Hr)].
      * exists []; split; [constructor|]; left; exists r; split; [reflexivity|]; split; [exact N|reflexivity].
      * destruct (IH r' c us') as (vs & F & H); [cbn in L; rewrite !app_len in L; cbn in L; lia|exact Hc|exact Hr|].
        exists (v :: vs); split; [constructor; assumption|].
        destruct H as [(v2 & -> & N2 & ->)|(r2 & us2 & -> & N2 & -> & H2)].
        -- left; exists v2; split; [cbn [brackets]; rewrite <- !str_app_assoc; reflexivity|]; split; [exact N2|reflexivity].
        -- right; exists r2, us2; split; [cbn [brackets]; rewrite <- !str_app_assoc; reflexivity|]; split; [exact N2|]; split; [reflexivity|exact H2].
    + exists []; split; [constructor|]; right; exists r, us; split; [reflexivity|]; split; [exact Ho|]; split; [reflexivity|exact E].
Qed.

Lemma parse_complete : forall n s us, String.length s <= n -> parse_regexp s = Ok us -> parses s us \/ parses_open s us.
Proof.
  induction n as [|n IH]; intros s us L E.
  - destruct s; [|cbn in L; lia]; injection E as <-; left; constructor.
  - destruct s as [|c r]; [injection E as <-; left; constructor|].
    assert (plain c) as Hc.
    { unfold parse_regexp in E; cbn [parse_loop] in E; unfold get_unit in E; split; intros ->; discriminate E. }
    unfold parse_regexp in E; rewrite first_plain in E by exact Hc.
    destruct (parse_loop r (Some c) None) as [us0|] eqn:Er; [|discriminate]; injection E as <-.
    destruct (opens_dec r) as [Ho|Ho].
    + assert (c <> "*"%char) as Hs.
      { intros ->; destruct r as [|a r]; [destruct Ho|]; cbn in Ho; subst a; discriminate Er. }
      destruct (scan_brackets _ r c us0 (le_n _) Hs Er) as (vs & F & H).
      assert (match r with String n _ => if Ascii.eqb n "[" then us0 else mkUnit c None :: us0 | "" => mkUnit c None :: us0 end = us0) as ->.
      { destruct r as [|a r]; [destruct Ho|]; cbn in Ho; subst a; reflexivity. }
      destruct H as [(v & -> & N & ->)|(r' & us' & -> & N & -> & H)].
      * right; constructor; assumption.
      * rewrite (base_irrelevant r') in H by exact N.
        assert (vs <> []) as Nv by (intros ->; contradiction).
        destruct (IH r' us') as [P|P]; [cbn in L; rewrite app_len in L; lia|exact H|left|right]; constructor; assumption.
    + rewrite not_opens by exact Ho; rewrite (base_irrelevant r) in Er by exact Ho.
      destruct (IH r us0) as [P|P]; [cbn in L; lia|exact Er|left|right]; constructor; assumption.
Qed.

Lemma parse_error : forall s b i e, parse_loop s b i = Err e -> e = EValueError.
Proof.
  induction s as [|c r IH]; intros b i e E; [discriminate|]; cbn [parse_loop] in E.
  destruct (get_unit c b _ i) as [[[u i'] b']|e'] eqn:G.
  - destruct (parse_loop r b' i') as [us|e2] eqn:P; [discriminate|]; injection E as ->; apply (IH _ _ _ P).
  - injection E as ->; unfold get_unit in G.
    destruct (Ascii.eqb c "["); [destruct i; [injection G; auto|]; destruct b as [b|]; [destruct (Ascii.eqb b "*")|]; [injection G; auto|discriminate|injection G; auto]|].
    destruct (Ascii.eqb c "]"); [destruct i; [discriminate|injection G; auto]|]; destruct i; discriminate.
Qed.

(** *** Matching *)
Fixpoint nostars2 (us : list runit) : Prop :=
  match us with u :: ((v :: _) as r) => (is_star u = true -> is_star v = false) /\ nostars2 r | _ => True end.

Lemma star_letter : forall u, is_star u = true <-> letter u = "*"%char.
Proof. intros u; unfold is_star; apply Ascii.eqb_eq. Qed.
Lemma nostar_letter : forall u, is_star u = false <-> letter u <> "*"%char.
Proof. intros u; unfold is_star; apply Ascii.eqb_neq. Qed.

Lemma cmp_ok : forall u t, is_star u = false -> (cmp u t = true <-> element_ok u t).
Proof.
  intros u t H; unfold cmp, element_ok; fold (is_star u); rewrite H.
  assert (match value u with Some v => String.eqb v (source t) | None => true end = true <-> (forall v, value u = Some v -> v = source t)) as V.
  { destruct (value u) as [v|]; [rewrite String.eqb_eq; split; [intros -> w E; injection E as ->; reflexivity|intros E; apply E; reflexivity]|].
    split; [intros _ v; discriminate|reflexivity]. }
  destruct (Ascii.eqb_spec (letter u) ".") as [E|N]; [rewrite V; tauto|].
  destruct (Ascii.eqb_spec (letter u) (letter_of t)) as [E|N2]; cbn [negb]; [rewrite V; tauto|].
  split; [discriminate|]; intros [[A|A] _]; contradiction.
Qed.

Lemma gmatch_nil : forall us, gmatch us [] -> Forall (fun u => is_star u = true) us.
Proof.
  intros us G; remember [] as ts eqn:E; induction G; try discriminate; [constructor|].
  constructor; [apply star_letter; assumption|auto].
Qed.

Lemma gmatch_star : forall u us ts, is_star u = true -> gmatch (u :: us) ts ->
  exists a b, ts = (a ++ b)%list /\ gmatch us b.
Proof.
  intros u us ts Hs G; remember (u :: us) as l eqn:E; revert u us Hs E.
  induction G as [|w ws ts Hw G IH|w ws t ts Hw G IH|w ws t ts Hw He G IH]; intros u us Hs E.
  - discriminate.
  - injection E as -> ->; exists [], ts; split; [reflexivity|exact G].
  - injection E as -> ->; destruct (IH u us Hs eq_refl) as (a & b & -> & Gb); exists (t :: a), b; split; [reflexivity|exact Gb].
  - injection E as -> ->; apply star_letter in Hs; contradiction.
Qed.
Lemma star_gmatch : forall u us a b, is_star u = true -> gmatch us b -> gmatch (u :: us) (a ++ b)%list.
Proof.
  intros u us a b Hs G; apply star_letter in Hs; induction a as [|t a IH]; cbn [app].
  - apply g_star0; assumption.
  - apply g_star1; assumption.
Qed.
Lemma gmatch_one : forall u us ts, is_star u = false -> gmatch (u :: us) ts -> exists t ts', ts = t :: ts' /\ element_ok u t /\ gmatch us ts'.
Proof.
  intros u us ts Hs G; inversion G as [|w ws ts' Hw G'|w ws t ts' Hw G'|w ws t ts' Hw He G']; subst.
  - apply star_letter in Hw; congruence.
  - apply star_letter in Hw; congruence.
  - eauto.
Qed.
Lemma one_gmatch : forall u us t ts, is_star u = false -> element_ok u t -> gmatch us ts -> gmatch (u :: us) (t :: ts).
Proof. intros u us t ts H; apply nostar_letter in H; intros; apply g_one; assumption. Qed.

Lemma nostars2_tail : forall u us, nostars2 (u :: us) -> nostars2 us.
Proof. intros u [|v us] H; [exact I|apply H]. Qed.

Lemma no_match_nil : forall u v r, nostars2 (u :: v :: r) -> ~ gmatch (u :: v :: r) [].
Proof.
  intros u v r [H _] G; apply gmatch_nil in G; inversion G as [|x l Hu G']; subst; inversion G' as [|x l Hv _]; subst.
  rewrite (H Hu) in Hv; discriminate.
Qed.

(** The inner loop of [rloop]. *)
Section Each.
  Variable re : list runit.
  Fixpoint each (ts : list token) : Res bool :=
    match ts with
    | [] => Ok false
    | _ :: ts' => match rloop re ts with Ok true => Ok true | Ok false => each ts' | Err e => Err e end
    end.
End Each.

Lemma rloop_spec : forall re, re <> [] -> nostars2 re -> forall ts, ts <> [] ->
  exists b, rloop re ts = Ok b /\ (b = true <-> gmatch re ts).
Proof.
  induction re as [|u re IH]; intros Hr N ts Ht; [contradiction|].
  destruct re as [|v r].
  - cbn [rloop]; destruct ts as [|t [|t2 ts]]; [contradiction| |].
    + exists (cmp u t); split; [reflexivity|]; destruct (is_star u) eqn:S.
      * assert (cmp u t = true) as -> by (unfold cmp; fold (is_star u); rewrite S; reflexivity).
        split; [intros _|reflexivity]; apply (star_gmatch u [] [t] [] S); constructor.
      * rewrite cmp_ok by exact S; split; intros H.
        -- apply one_gmatch; [exact S|exact H|constructor].
        -- apply gmatch_one in H; [|exact S]; destruct H as (t' & ts' & E & He & _); injection E as <- _; exact He.
    + exists (is_star u); split; [reflexivity|]; destruct (is_star u) eqn:S.
      * split; [intros _|reflexivity]; rewrite <- (app_nil_r (t :: t2 :: ts)); apply star_gmatch; [exact S|constructor].
      * split; [discriminate|]; intros G; apply gmatch_one in G; [|exact S]; destruct G as (t' & ts' & E & _ & G); injection E as _ <-; inversion G.
  - assert (nostars2 (v :: r)) as N' by (apply (nostars2_tail u); exact N).
    assert (forall ts, ts <> [] -> exists b, rloop (v :: r) ts = Ok b /\ (b = true <-> gmatch (v :: r) ts)) as IH' by (apply IH; [discriminate|exact N']).
    destruct (is_star u) eqn:S.
    + assert (is_star v = false) as Sv by (apply N; exact S).
      assert (forall b, ~ (b = [] /\ gmatch (v :: r) b)) as Nn.
      { intros b [-> G]; apply gmatch_one in G; [|exact Sv]; destruct G as (t & ts' & E & _); discriminate. }
      destruct ts as [|t [|t2 ts]]; [contradiction| |].
      * change (rloop (u :: v :: r) [t]) with (if is_star u then rloop (v :: r) [t] else if cmp u t then Ok (match r with [] => is_star v | _ => false end) else Ok false).
        rewrite S; destruct (IH' [t]) as (b & E & Hb); [discriminate|]; exists b; split; [exact E|]; rewrite Hb; split; intros G.
        -- apply (star_gmatch u (v :: r) [] [t] S G).
        -- apply gmatch_star in G; [|exact S]; destruct G as (a & b' & E' & G').
           destruct a as [|x a]; [cbn in E'; subst b'; exact G'|].
           destruct a; [|discriminate]; cbn in E'; injection E' as _ <-; exfalso; apply (Nn []); auto.
      * assert (rloop (u :: v :: r) (t :: t2 :: ts) = each (v :: r) (t :: t2 :: ts)) as -> 
          by (transitivity (if is_star u then each (v :: r) (t :: t2 :: ts) else if cmp u t then rloop (v :: r) (t2 :: ts) else Ok false); [reflexivity|rewrite S; reflexivity]).
        generalize (t :: t2 :: ts) as l; clear Ht t t2 ts; induction l as [|x l IHl].
        -- exists false; split; [reflexivity|]; split; [discriminate|]; intros G; exfalso; revert G; apply no_match_nil; exact N.
        -- destruct (IH' (x :: l)) as ([|] & E & Hb); [discriminate| |]; change (each (v :: r) (x :: l)) with (match rloop (v :: r) (x :: l) with Ok true => Ok true | Ok false => each (v :: r) l | Err e => Err e end); rewrite E.
           ++ exists true; split; [reflexivity|]; split; [intros _|reflexivity]; apply (star_gmatch u (v :: r) [] (x :: l) S); apply Hb; reflexivity.
           ++ destruct IHl as (b & El & Hl); exists b; split; [exact El|]; rewrite Hl; split; intros G.
              ** apply gmatch_star in G; [|exact S]; destruct G as (a & b' & -> & G'); apply (star_gmatch u (v :: r) (x :: a) b' S G').
              ** apply gmatch_star in G; [|exact S]; destruct G as (a & b' & E' & G').
                 destruct a as [|y a]; cbn in E'.
                 { subst b'; apply Hb in G'; discriminate. }
                 injection E' as <- ->; apply star_gmatch; assumption.
    + destruct ts as [|t [|t2 ts]]; [contradiction| |].
      * change (rloop (u :: v :: r) [t]) with (if is_star u then rloop (v :: r) [t] else if cmp u t then Ok (match r with [] => is_star v | _ => false end) else Ok false).
        rewrite S; destruct (cmp u t) eqn:C.
        -- exists (match r with [] => is_star v | _ => false end); split; [reflexivity|]; apply cmp_ok in C; [|exact S]; split; intros H.
           ++ destruct r; [|discriminate]; apply one_gmatch; [exact S|exact C|]; apply (star_gmatch v [] [] [] H); constructor.
           ++ apply gmatch_one in H; [|exact S]; destruct H as (t' & ts' & E & _ & G); injection E as _ <-.
              apply gmatch_nil in G; inversion G as [|x l Hv G']; subst; destruct r as [|w r]; [exact Hv|].
              inversion G' as [|x l Hw _]; subst; destruct N' as [N' _]; rewrite (N' Hv) in Hw; discriminate.
        -- exists false; split; [reflexivity|]; split; [discriminate|]; intros H; apply gmatch_one in H; [|exact S].
           destruct H as (t' & ts' & E & He & _); injection E as <- _; apply cmp_ok in He; [congruence|exact S].
      * change (rloop (u :: v :: r) (t :: t2 :: ts)) with
          (if is_star u then (fix each (ts : list token) : Res bool :=
                      match ts with
                      | [] => Ok false
                      | _ :: ts' => match rloop (v :: r) ts with Ok true => Ok true | Ok false => each ts' | Err e => Err e end
                      end) (t :: t2 :: ts)
           else if cmp u t then rloop (v :: r) (t2 :: ts) else Ok false).
        rewrite S; destruct (cmp u t) eqn:C.
        -- destruct (IH' (t2 :: ts)) as (b & E & Hb); [discriminate|]; exists b; split; [exact E|]; rewrite Hb; split; intros G.
           ++ apply one_gmatch; [exact S|apply cmp_ok; assumption|exact G].
           ++ apply gmatch_one in G; [|exact S]; destruct G as (t' & ts' & E' & _ & G); injection E' as _ <-; exact G.
        -- exists false; split; [reflexivity|]; split; [discriminate|]; intros H; apply gmatch_one in H; [|exact S].
           destruct H as (t' & ts' & E & He & _); injection E as <- _; apply cmp_ok in He; [congruence|exact S].
Qed.

Lemma reduce_cons : forall u us, reduce (u :: us) =
  if is_star u then match us with [] => [u] | n :: _ => if is_star n then reduce us else u :: reduce us end else u :: reduce us.
Proof. reflexivity. Qed.

Lemma reduce_head : forall us u, exists v r, reduce (u :: us) = v :: r /\ is_star v = is_star u.
Proof.
  induction us as [|w us IH]; intros u; rewrite reduce_cons; destruct (is_star u) eqn:S; try (exists u; eauto; fail).
  destruct (is_star w) eqn:Sw; [|exists u; eauto].
  destruct (IH w) as (v & r & E & H); exists v, r; split; [exact E|congruence].
Qed.

Lemma nostars2_cons : forall u us, nostars2 us -> (is_star u = true -> match us with v :: _ => is_star v = false | [] => True end) -> nostars2 (u :: us).
Proof. intros u [|v us] N H; [exact I|]; split; [exact H|exact N]. Qed.

Lemma reduce_ns : forall us, nostars2 (reduce us).
Proof.
  induction us as [|u us IH]; [exact I|]; rewrite reduce_cons; destruct (is_star u) eqn:S.
  - destruct us as [|v us]; [exact I|]; destruct (is_star v) eqn:Sv; [exact IH|].
    apply nostars2_cons; [exact IH|]; intros _; destruct (reduce_head us v) as (w & l & -> & H); congruence.
  - apply nostars2_cons; [exact IH|congruence].
Qed.

Lemma reduce_gmatch : forall us ts, gmatch (reduce us) ts <-> gmatch us ts.
Proof.
  induction us as [|u us IH]; intros ts; [reflexivity|]; rewrite reduce_cons; destruct (is_star u) eqn:S.
  - destruct us as [|v us]; [reflexivity|]; destruct (is_star v) eqn:Sv.
    + rewrite IH; split; intros G.
      * apply (star_gmatch u (v :: us) [] ts S G).
      * apply gmatch_star in G; [|exact S]; destruct G as (a & b & -> & G).
        apply gmatch_star in G; [|exact Sv]; destruct G as (a' & b' & -> & G); rewrite app_assoc; apply star_gmatch; assumption.
    + split; intros G; apply gmatch_star in G; try exact S; destruct G as (a & b & -> & G); apply star_gmatch; try exact S; apply IH; exact G.
  - split; intros G; apply gmatch_one in G; try exact S; destruct G as (t & ts' & -> & He & G); apply one_gmatch; try assumption; apply IH; exact G.
Qed.

Lemma reduce_nil : forall us, reduce us = [] <-> us = [].
Proof.
  intros us; split; [|intros ->; reflexivity].
  intros E; destruct us as [|u us]; [reflexivity|]; destruct (reduce_head us u) as (w & l & E' & _); congruence.
Qed.
