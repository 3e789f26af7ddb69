(** C60: the names of rotated files. *)
From Coq Require Import Ascii Lia.
From Verif Require Import Base Name_Model.
Local Open Scope char_scope.
Local Open Scope list_scope.

(** The ranges of a datetime. *)
Definition valid (t : moment) : Prop :=
  year t < 10 ^ 4 /\ month t < 10 ^ 2 /\ day t < 10 ^ 2 /\ hour t < 10 ^ 2 /\ minute t < 10 ^ 2 /\ second t < 10 ^ 2 /\ micro t < 10 ^ 6.
(** Chronological order. *)
Fixpoint lex_nat (l m : list nat) : comparison :=
  match l, m with
  | [], [] => Eq | [], _ => Lt | _, [] => Gt
  | x :: l, y :: m => match Nat.compare x y with Eq => lex_nat l m | r => r end
  end.
Definition chrono (a b : moment) : comparison :=
  lex_nat [year a; month a; day a; hour a; minute a; second a; micro a] [year b; month b; day b; hour b; minute b; second b; micro b].
(** Alphabetical order (by character codes). *)
Definition lex (l m : list ascii) : comparison := lex_nat (map nat_of_ascii l) (map nat_of_ascii m).

Lemma digit_code : forall n, n < 10 -> nat_of_ascii (digit n) = 48 + n.
Proof. intros n L; unfold digit; apply nat_ascii_embedding; lia. Qed.
Lemma digit_inj : forall a b, a < 10 -> b < 10 -> digit a = digit b -> a = b.
Proof. intros a b La Lb E; apply (f_equal nat_of_ascii) in E; rewrite !digit_code in E by assumption; lia. Qed.
Lemma digits_length : forall k n, length (digits k n) = k.
Proof. induction k as [|k IH]; intros n; cbn [digits]; [reflexivity|rewrite app_length, IH; cbn; lia]. Qed.
Definition is_digit (c : ascii) : bool := (Nat.leb 48 (nat_of_ascii c) && Nat.leb (nat_of_ascii c) 57)%bool.
Lemma digit_is : forall n, n < 10 -> is_digit (digit n) = true.
Proof. intros n L; unfold is_digit; rewrite digit_code by exact L; apply andb_true_intro; split; apply Nat.leb_le; lia. Qed.
Lemma mod10 : forall n, n mod 10 < 10.
Proof. intros n; apply Nat.mod_upper_bound; lia. Qed.
Lemma digits_are : forall k n, Forall (fun c => is_digit c = true) (digits k n).
Proof. induction k as [|k IH]; intros n; cbn [digits]; [constructor|apply Forall_app; split; [apply IH|constructor; [apply digit_is, mod10|constructor]]]. Qed.
Lemma dec_fuel_are : forall f n, Forall (fun c => is_digit c = true) (dec_fuel f n).
Proof.
  induction f as [|f IH]; intros n; cbn [dec_fuel]; [constructor|apply Forall_app; split; [destruct (Nat.ltb n 10); [constructor|apply IH]|constructor; [apply digit_is, mod10|constructor]]].
Qed.

Lemma div10 : forall n k, n < 10 ^ S k -> n / 10 < 10 ^ k.
Proof. intros n k L; apply Nat.div_lt_upper_bound; [lia|rewrite <- Nat.pow_succ_r'; exact L]. Qed.
Lemma divmod : forall a b, a / 10 = b / 10 -> a mod 10 = b mod 10 -> a = b.
Proof. intros a b E1 E2; rewrite (Nat.div_mod a 10), (Nat.div_mod b 10), E1, E2 by lia; reflexivity. Qed.
Lemma snoc_inj : forall B (a b : list B) x y, a ++ [x] = b ++ [y] -> a = b /\ x = y.
Proof. intros; apply app_inj_tail; assumption. Qed.
Lemma digits_inj : forall k a b, a < 10 ^ k -> b < 10 ^ k -> digits k a = digits k b -> a = b.
Proof.
  induction k as [|k IH]; intros a b La Lb E; [cbn in La, Lb; lia|].
  cbn [digits] in E; apply snoc_inj in E; destruct E as [E1 E2]; apply divmod; [apply IH; [apply div10|apply div10|]; assumption|].
  apply digit_inj; auto using mod10.
Qed.
Lemma dec_fuel_inj : forall f g a b, a < f -> b < g -> dec_fuel f a = dec_fuel g b -> a = b.
Proof.
  assert (NE : forall f a, a < f -> dec_fuel f a <> []) by (intros [|f] a L; [lia|cbn [dec_fuel]; intros E; apply app_eq_nil in E; destruct E as [_ E]; discriminate]).
  assert (D : forall n, 10 <= n -> n / 10 < n) by (intros n L; apply Nat.div_lt; lia).
  induction f as [|f IH]; intros g a b La Lb E; [lia|]; destruct g as [|g]; [lia|]; cbn [dec_fuel] in E.
  apply snoc_inj in E; destruct E as [E1 E2]; apply digit_inj in E2; auto using mod10.
  destruct (Nat.ltb_spec a 10) as [A|A], (Nat.ltb_spec b 10) as [B|B].
  - rewrite !Nat.mod_small in E2 by assumption; exact E2.
  - exfalso; symmetry in E1; apply NE in E1; [exact E1|specialize (D b B); lia].
  - exfalso; apply NE in E1; [exact E1|specialize (D a A); lia].
  - apply divmod; [|exact E2]; apply (IH g); [specialize (D a A); lia|specialize (D b B); lia|exact E1].
Qed.
Lemma dec_inj : forall a b, dec a = dec b -> a = b.
Proof. intros a b E; apply (dec_fuel_inj (S a) (S b)); [lia|lia|exact E]. Qed.

(** The stamp, with the space already replaced. *)
Lemma replace_digits : forall l, Forall (fun c => is_digit c = true) l -> map (fun c => if Ascii.eqb c " " then "_" else c) l = l.
Proof.
  induction l as [|c l IH]; intros F; [reflexivity|]; inversion F as [|x y Fc Fl]; subst; cbn [map]; rewrite (IH Fl); f_equal.
  destruct (Ascii.eqb_spec c " ") as [->|_]; [discriminate|reflexivity].
Qed.
Definition tail_of (us : nat) : list ascii := if Nat.eqb us 0 then [] else "." :: digits 6 us.
Lemma stamp_is : forall t, stamp t = digits 4 (year t) ++ "-" :: digits 2 (month t) ++ "-" :: digits 2 (day t) ++ "_" ::
  digits 2 (hour t) ++ ":" :: digits 2 (minute t) ++ ":" :: digits 2 (second t) ++ tail_of (micro t).
Proof.
  intros t; unfold stamp, str_moment, tail_of; repeat (rewrite map_app || rewrite map_cons); rewrite !replace_digits by apply digits_are; cbn [Ascii.eqb].
  destruct (Nat.eqb (micro t) 0); [reflexivity|rewrite map_cons, replace_digits by apply digits_are; reflexivity].
Qed.
Lemma app_same : forall B (a b c d : list B), length a = length b -> a ++ c = b ++ d -> a = b /\ c = d.
Proof.
  induction a as [|x a IH]; intros [|y b] c d L E; try discriminate; cbn in *; [auto|].
  injection E as -> E; injection L as L; destruct (IH b c d L E) as [-> ->]; auto.
Qed.
Lemma field : forall k a b x y l m, a < 10 ^ k -> b < 10 ^ k -> digits k a ++ x :: l = digits k b ++ y :: m -> a = b /\ x = y /\ l = m.
Proof.
  intros k a b x y l m La Lb E; apply app_same in E; [|rewrite !digits_length; reflexivity]; destruct E as [E1 E2]; injection E2 as -> ->.
  split; [apply (digits_inj k); assumption|auto].
Qed.
Lemma field_end : forall k a b l m, a < 10 ^ k -> b < 10 ^ k -> digits k a ++ l = digits k b ++ m -> a = b /\ l = m.
Proof.
  intros k a b l m La Lb E; apply app_same in E; [|rewrite !digits_length; reflexivity]; destruct E as [E1 E2].
  split; [apply (digits_inj k); assumption|exact E2].
Qed.

(** ** C60 *)
(** Different moments or different processes: different names. *)
Theorem C60_names_differ : forall t1 p1 t2 p2, valid t1 -> valid t2 -> new_filename t1 p1 = new_filename t2 p2 -> t1 = t2 /\ p1 = p2.
Proof.
  intros t1 p1 t2 p2 (A1 & A2 & A3 & A4 & A5 & A6 & A7) (B1 & B2 & B3 & B4 & B5 & B6 & B7) E; unfold new_filename in E; rewrite !stamp_is in E.
  repeat (rewrite <- app_assoc in E || rewrite <- app_comm_cons in E).
  apply field in E; [|assumption|assumption]; destruct E as (E1 & _ & E); apply field in E; [|assumption|assumption]; destruct E as (E2 & _ & E).
  apply field in E; [|assumption|assumption]; destruct E as (E3 & _ & E); apply field in E; [|assumption|assumption]; destruct E as (E4 & _ & E).
  apply field in E; [|assumption|assumption]; destruct E as (E5 & _ & E); apply field_end in E; [|assumption|assumption]; destruct E as (E6 & E).
  assert (K : micro t1 = micro t2 /\ dec p1 ++ ["."; "l"; "o"; "g"; "s"] = dec p2 ++ ["."; "l"; "o"; "g"; "s"]).
  { unfold tail_of in E; destruct (Nat.eqb_spec (micro t1) 0) as [Z1|Z1], (Nat.eqb_spec (micro t2) 0) as [Z2|Z2]; cbn [app] in E.
    - injection E as E; split; [congruence|exact E].
    - discriminate.
    - discriminate.
    - apply (f_equal (@tl _)) in E; cbn [tl] in E; apply field in E; [|assumption|assumption]; destruct E as (E7 & _ & E); auto. }
  destruct K as [E7 K]; apply app_inv_tail, dec_inj in K; split; [|exact K].
  clear -E1 E2 E3 E4 E5 E6 E7; destruct t1 as [a1 a2 a3 a4 a5 a6 a7], t2 as [b1 b2 b3 b4 b5 b6 b7]; cbn [year month day hour minute second micro] in *; congruence.
Qed.

Lemma new_filename_start : forall t p, exists c r, new_filename t p = c :: r /\ is_digit c = true.
Proof.
  intros t p; unfold new_filename; rewrite stamp_is; pose proof (digits_length 4 (year t)) as L; pose proof (digits_are 4 (year t)) as F.
  destruct (digits 4 (year t)) as [|c r]; [discriminate|inversion F; subst; cbn; eauto].
Qed.
(** The path: the directory, a slash if needed, the name. *)
Definition with_slash (to : list ascii) : list ascii := match to with [] => [] | _ => if Ascii.eqb (last to " ") "/" then to else to ++ ["/"] end.
Lemma path_is : forall to t p, rotated_path to t p = with_slash to ++ new_filename t p.
Proof.
  intros to t p; unfold rotated_path, join; destruct (new_filename_start t p) as (c & r & -> & D).
  assert (S : c <> "/") by (intros ->; discriminate).
  assert (Q : forall (X Y : list ascii), match c :: r with "/" :: _ => X | _ => Y end = Y).
  { intros X Y; destruct c as [[] [] [] [] [] [] [] []]; try reflexivity; exfalso; apply S; reflexivity. }
  etransitivity; [apply Q|]; unfold with_slash; destruct to; [reflexivity|destruct (Ascii.eqb _ _); [reflexivity|rewrite <- app_assoc; reflexivity]].
Qed.
(** For one directory the whole paths differ. *)
Theorem C60_paths_differ : forall to t1 p1 t2 p2, valid t1 -> valid t2 -> rotated_path to t1 p1 = rotated_path to t2 p2 -> t1 = t2 /\ p1 = p2.
Proof. intros to t1 p1 t2 p2 V1 V2 E; rewrite !path_is in E; apply app_inv_head in E; apply C60_names_differ; assumption. Qed.
(** The file lies in that very directory: its name has no slash. *)
Theorem C60_in_the_directory : forall to t p, exists name, rotated_path to t p = with_slash to ++ name /\ ~ In "/" name /\ name <> [].
Proof.
  intros to t p; exists (new_filename t p); split; [apply path_is|]; split.
  - assert (D : forall l, Forall (fun c => is_digit c = true) l -> ~ In "/" l) by (intros l F K; rewrite Forall_forall in F; apply F in K; discriminate).
    assert (D' : forall k n, ~ In "/" (digits k n)) by (intros; apply D, digits_are).
    unfold new_filename; rewrite stamp_is; unfold tail_of.
    repeat (rewrite in_app_iff || cbn [In]); intros K.
    repeat match goal with H : _ \/ _ |- _ => destruct H as [H|H] end; try discriminate; try (eapply D'; eassumption); try contradiction.
    + destruct (Nat.eqb (micro t) 0); [destruct K|destruct K as [K|K]; [discriminate|eapply D'; eassumption]].
    + revert K; apply D, dec_fuel_are.
  - destruct (new_filename_start t p) as (c & r & -> & _); discriminate.
Qed.

(** ** The order of the names *)
Lemma lex_refl : forall l, lex_nat l l = Eq.
Proof. induction l as [|x l IH]; cbn; [reflexivity|rewrite Nat.compare_refl; exact IH]. Qed.
Lemma lex_app : forall a b l m, length a = length b -> lex_nat (a ++ l) (b ++ m) = match lex_nat a b with Eq => lex_nat l m | r => r end.
Proof.
  induction a as [|x a IH]; intros [|y b] l m L; try discriminate; cbn; [reflexivity|]; injection L as L; rewrite (IH b l m L); destruct (Nat.compare x y); reflexivity.
Qed.
Lemma lex_digits : forall k a b, a < 10 ^ k -> b < 10 ^ k -> lex (digits k a) (digits k b) = Nat.compare a b.
Proof.
  unfold lex; induction k as [|k IH]; intros a b La Lb; [cbn in *; symmetry; apply Nat.compare_eq_iff; lia|].
  cbn [digits]; rewrite !map_app, lex_app by (rewrite !map_length, !digits_length; reflexivity).
  rewrite IH by (apply div10; assumption); cbn [map lex_nat]; rewrite !digit_code by apply mod10.
  pose proof (Nat.div_mod a 10 ltac:(lia)) as Ea; pose proof (Nat.div_mod b 10 ltac:(lia)) as Eb.
  pose proof (mod10 a); pose proof (mod10 b).
  destruct (Nat.compare_spec (a / 10) (b / 10)) as [Q|Q|Q].
  - replace (Nat.compare (48 + a mod 10) (48 + b mod 10)) with (Nat.compare a b); [destruct (Nat.compare a b); reflexivity|].
    destruct (Nat.compare_spec a b); symmetry; [apply Nat.compare_eq_iff|apply Nat.compare_lt_iff|apply Nat.compare_gt_iff]; lia.
  - symmetry; apply Nat.compare_lt_iff; lia.
  - symmetry; apply Nat.compare_gt_iff; lia.
Qed.
Lemma lex_field : forall k a b x l m, a < 10 ^ k -> b < 10 ^ k -> lex (digits k a ++ x :: l) (digits k b ++ x :: m) = match Nat.compare a b with Eq => lex l m | r => r end.
Proof.
  intros k a b x l m La Lb; unfold lex; rewrite !map_app, lex_app by (rewrite !map_length, !digits_length; reflexivity).
  fold (lex (digits k a) (digits k b)); rewrite lex_digits by assumption; cbn [map lex_nat]; rewrite Nat.compare_refl; reflexivity.
Qed.
(** The names of one process, none of them at a whole second: alphabetical order is chronological order. *)
Theorem C60_sorted : forall t1 t2 p, valid t1 -> valid t2 -> micro t1 <> 0 -> micro t2 <> 0 ->
  lex (new_filename t1 p) (new_filename t2 p) = chrono t1 t2.
Proof.
  intros t1 t2 p (A1 & A2 & A3 & A4 & A5 & A6 & A7) (B1 & B2 & B3 & B4 & B5 & B6 & B7) Z1 Z2; unfold new_filename; rewrite !stamp_is; unfold tail_of.
  apply Nat.eqb_neq in Z1; apply Nat.eqb_neq in Z2; rewrite Z1, Z2.
  repeat (rewrite <- app_assoc || rewrite <- app_comm_cons); unfold chrono; cbn [lex_nat].
  rewrite !lex_field by assumption.
  repeat match goal with |- context [Nat.compare ?a ?b] => destruct (Nat.compare a b) end; try reflexivity; apply lex_refl.
Qed.
(** A file of a whole second is sorted after the later files of that second: its name has no microseconds, and '.' comes before '_'. *)
Theorem C60_whole_second_refuted : ~ (forall t1 t2 p, valid t1 -> valid t2 -> lex (new_filename t1 p) (new_filename t2 p) = chrono t1 t2).
Proof.
  intros H; specialize (H (mkT 20 10 1 12 0 5 0) (mkT 20 10 1 12 0 5 1) 7); unfold valid in H; cbn [year month day hour minute second micro] in H.
  assert (P : forall n k, n < 10 ^ 1 * 10 -> 2 <= k -> n < 10 ^ k).
  { intros n k L1 L2; eapply Nat.lt_le_trans; [exact L1|]; change (10 ^ 1 * 10) with (10 ^ 2); apply Nat.pow_le_mono_r; lia. }
  assert (L : lex (new_filename (mkT 20 10 1 12 0 5 0) 7) (new_filename (mkT 20 10 1 12 0 5 1) 7) = Gt) by (vm_compute; reflexivity).
  rewrite L in H; assert (C : Gt = chrono (mkT 20 10 1 12 0 5 0) (mkT 20 10 1 12 0 5 1)) by (apply H; repeat split; apply P; cbn; lia).
  discriminate C.
Qed.

Example ex_name : string_of_list_ascii (rotated_path ["l"; "o"; "g"; "s"] (mkT 2026 11 16 9 5 0 1234) 77) = "logs/2026-11-16_09:05:00.001234_77.logs"%string.
Proof. vm_compute; reflexivity. Qed.
Example ex_name_whole : string_of_list_ascii (rotated_path ["l"; "/"] (mkT 2026 1 2 3 4 5 0) 101) = "l/2026-01-02_03:04:05_101.logs"%string.
Proof. vm_compute; reflexivity. Qed.

Print Assumptions C60_names_differ.
Print Assumptions C60_paths_differ.
Print Assumptions C60_in_the_directory.
Print Assumptions C60_sorted.
Print Assumptions C60_whole_second_refuted.
