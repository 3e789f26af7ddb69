(** Invariants of the engine: locks, engine instances, workers. *)
From Verif Require Import Base Eng_Model Eng_Spec Eng_Moves.

(** Who is inside the section protected by the engine lock / by the settings lock. *)
Definition w_hE (pc : wpc) : nat := match pc with W2 | W3a | W3b | W3c | W3d | W4 | B2 | B3 _ | B4 => 1 | _ => 0 end.
Definition f_hE (f : frame) : nat := match f with FWrite pc _ => w_hE pc | _ => 0 end.
Definition t_hE (pc : tpc) : nat := match pc with S3 | S6 | S7 _ | S8 | S9 | S10 => 1 | _ => 0 end.
Definition b_hE (b : base) : nat := match b with BThread _ pc => t_hE pc | _ => 0 end.
Definition hE (x : act) : nat := b_hE (abase x) + tot f_hE (astack x).
Definition f_hL (f : frame) : nat := match f with FWrite W3b _ => 1 | _ => 0 end.
Definition t_hL (pc : tpc) : nat :=
  match pc with S1 _ _ | S2 | S3 | S4 | S5 | S6 | S7 _ | S8 | S9 | S10 | S11 | T1 => 1 | _ => 0 end.
Definition b_hL (b : base) : nat := match b with BThread _ pc => t_hL pc | _ => 0 end.
Definition hL (x : act) : nat := b_hL (abase x) + tot f_hL (astack x).
(** The hook after it took the lock. *)
Definition hH (x : act) : nat := match abase x with BThread _ H2 | BThread _ (H3 _) => 1 | _ => 0 end.

(** Case analysis of a move. *)
Ltac pcases P :=
  apply pstep_cases in P;
  destruct P as [(-> & -> & -> & PC)|[(pk & pe & -> & PC & PE & PM & -> & ->)|[(pk & pe & -> & PE & PQ & -> & ->)|
    [(pk & pi & pe & -> & PE & PL & -> & ->)|[(pk & pi & pe & -> & PE & PL & -> & ->)|[(pk & pi & pe & -> & PE & PL & PX & -> & ->)|
    [(pk & pi & pe & -> & PE & PL & -> & ->)|(-> & -> & ->)]]]]]]].
Ltac mcases H := destruct H;
  try match goal with P : pstep _ _ _ = Some (_, _) |- _ => pcases P end;
  try match goal with P : _ = H1 \/ _ = H2 \/ (exists p, _ = H3 p) |- _ => destruct P as [->|[->|[? ->]]] end.
Ltac proj := cbn [emit set_elock set_slock set_started set_mode set_sizes set_active set_leaked set_eng load
  engs cur elock slock started wmode psize qmax active serial leaked trace abase astack] in *.

Section Locks.
  Variable nested : nat -> list nat.

  Lemma store_proj : forall g k v, engs (store g k v) = engs g /\ cur (store g k v) = cur g /\ elock (store g k v) = elock g /\
    slock (store g k v) = slock g /\ started (store g k v) = started g /\ wmode (store g k v) = wmode g /\
    active (store g k v) = active g /\ serial (store g k v) = serial g /\ leaked (store g k v) = leaked g /\ trace (store g k v) = trace g.
  Proof. intros g [] v; repeat (split; [reflexivity|]); reflexivity. Qed.
  Lemma store_elock : forall g k v, elock (store g k v) = elock g. Proof. intros; apply store_proj. Qed.
  Lemma store_slock : forall g k v, slock (store g k v) = slock g. Proof. intros; apply store_proj. Qed.
  Lemma store_leaked : forall g k v, leaked (store g k v) = leaked g. Proof. intros; apply store_proj. Qed.
  Lemma store_engs : forall g k v, engs (store g k v) = engs g. Proof. intros; apply store_proj. Qed.
  Lemma store_cur : forall g k v, cur (store g k v) = cur g. Proof. intros; apply store_proj. Qed.
  Lemma store_started : forall g k v, started (store g k v) = started g. Proof. intros; apply store_proj. Qed.
  Lemma store_wmode : forall g k v, wmode (store g k v) = wmode g. Proof. intros; apply store_proj. Qed.
  Lemma store_trace : forall g k v, trace (store g k v) = trace g. Proof. intros; apply store_proj. Qed.
  Lemma store_serial : forall g k v, serial (store g k v) = serial g. Proof. intros; apply store_proj. Qed.

  Lemma locks_local : forall ex n x g x' g' new, lm nested ex n x g x' g' new -> forall r,
    (hE x + r + b2n (leaked g) = b2n (elock g) -> hE x' + r + b2n (leaked g') + tot hE new = b2n (elock g')) /\
    (hL x + r = b2n (slock g) -> hL x' + r + tot hL new = b2n (slock g')) /\
    (forall q, hE x + q + b2n (leaked g) = b2n (elock g) -> hH x + r <= b2n (leaked g) -> hH x' + r + tot hH new <= b2n (leaked g')).
  Proof.
    intros ex n x g x' g' new H r; mcases H; rewrite ?store_elock, ?store_slock, ?store_leaked, ?workers_zero by reflexivity;
      unfold hE, hL, hH; proj; cbn [b_hE b_hL t_hE t_hL]; rewrite ?tot_cons, ?tot_nil; cbn [f_hE w_hE f_hL];
      repeat match goal with E : elock _ = _ |- _ => rewrite E; clear E | E : slock _ = _ |- _ => rewrite E; clear E end;
      try destruct (elock g); try destruct (slock g); try destruct (leaked g); cbn [b2n]; (split; [try lia|split; [try lia|intros q0; try lia]]).
    all: destruct (wmode g); subst; cbn; lia.
  Qed.

  Definition InvA (s : state) : Prop :=
    tot hE (actors s) + b2n (leaked (sh s)) = b2n (elock (sh s)) /\
    tot hL (actors s) = b2n (slock (sh s)) /\
    tot hH (actors s) <= b2n (leaked (sh s)).

  Lemma InvA_trans : forall s s', InvA s -> trans nested s s' -> InvA s'.
  Proof.
    intros s s' (A & B & C) (l1 & x & l2 & x' & g' & new & E & H & ->); unfold InvA; cbn [actors sh].
    rewrite E in A, B, C; rewrite !tot_app, !tot_cons in *; rewrite !tot_app.
    split; [|split].
    - destruct (locks_local _ _ _ _ _ _ _ H (tot hE l1 + tot hE l2)) as (H1 & _); specialize (H1 ltac:(lia)); lia.
    - destruct (locks_local _ _ _ _ _ _ _ H (tot hL l1 + tot hL l2)) as (_ & H1 & _); specialize (H1 ltac:(lia)); lia.
    - destruct (locks_local _ _ _ _ _ _ _ H (tot hH l1 + tot hH l2)) as (_ & _ & H1); specialize (H1 (tot hE l1 + tot hE l2) ltac:(lia) ltac:(lia)); lia.
  Qed.

  Lemma InvA_init : forall progs p q, InvA (init progs p q).
  Proof.
    intros progs p q; unfold InvA, init; cbn [actors sh leaked elock slock b2n].
    rewrite !tot_zero; [repeat split; lia| | |]; intros x Hx; apply in_map_iff in Hx; destruct Hx as (cs & <- & _); reflexivity.
  Qed.
End Locks.
