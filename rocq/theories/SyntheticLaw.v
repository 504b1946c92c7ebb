(** Areas under the step functions of the uniform laws, for C62. *)
From Verif Require Import Ext.
From Coquelicot Require Import Coquelicot.
Local Open Scope R_scope.

(** [v] is the area under [f] between [a] and [b] (the Riemann integral). *)
Definition area (f : R -> R) (a b v : R) : Prop := is_RInt f a b v.

Lemma area_const f c a b : a <= b -> (forall x, a < x < b -> f x = c) -> area f a b (c * (b - a)).
Proof.
  intros H E. unfold area. apply (is_RInt_ext (fun _ => c)).
  - intros x Hx. rewrite Rmin_left, Rmax_right in Hx by exact H. symmetry. apply E, Hx.
  - pose proof (is_RInt_const a b c) as K. unfold scal in K. cbn in K. unfold mult in K. cbn in K.
    rewrite Rmult_comm. exact K.
Qed.
Lemma area_join f a b c u v : area f a b u -> area f b c v -> area f a c (u + v).
Proof. intros H1 H2. exact (is_RInt_Chasles f a b c u v H1 H2). Qed.
Lemma area_plus f g a b u v : area f a b u -> area g a b v -> area (fun x => f x + g x) a b (u + v).
Proof. intros H1 H2. exact (is_RInt_plus f g a b u v H1 H2). Qed.
Lemma area_ext f g a b v : (forall x, f x = g x) -> area f a b v -> area g a b v.
Proof. intros E. apply is_RInt_ext. intros x _. apply E. Qed.
Lemma area_unique f a b u v : area f a b u -> area f a b v -> u = v.
Proof. intros H1 H2. rewrite <- (is_RInt_unique f a b u H1). apply is_RInt_unique, H2. Qed.

(** The overlap of two intervals. *)
Definition overlap (a b lo hi : R) : R := Rmax 0 (Rmin b hi - Rmax a lo).

Lemma area_step f c a b lo hi : a <= b -> lo <= hi ->
  (forall x, a < x < b -> lo < x < hi -> f x = c) -> (forall x, a < x < b -> x < lo \/ hi < x -> f x = 0) ->
  area f a b (c * overlap a b lo hi).
Proof.
  intros Hab Hlh Hin Hout. unfold overlap.
  destruct (Rle_lt_dec b lo) as [B|B].
  { replace (c * _) with (0 * (b - a)); [apply area_const; [exact Hab|]; intros x Hx; apply Hout; [exact Hx|lra]|].
    rewrite (Rmin_left b hi) by lra. rewrite (Rmax_right a lo) by lra. rewrite Rmax_left by lra. ring. }
  destruct (Rle_lt_dec hi a) as [A|A].
  { replace (c * _) with (0 * (b - a)); [apply area_const; [exact Hab|]; intros x Hx; apply Hout; [exact Hx|lra]|].
    rewrite (Rmin_right b hi) by lra. rewrite (Rmax_left a lo) by lra. rewrite Rmax_left by lra. ring. }
  set (p := Rmax a lo). set (q := Rmin b hi).
  assert (Hp : a <= p /\ lo <= p /\ p <= b /\ p <= hi) by (unfold p, Rmax; destruct (Rle_dec a lo); lra).
  assert (Hq : q <= b /\ q <= hi /\ a <= q /\ lo <= q) by (unfold q, Rmin; destruct (Rle_dec b hi); lra).
  assert (Hpq : p <= q) by (unfold p, q, Rmax, Rmin; destruct (Rle_dec a lo), (Rle_dec b hi); lra).
  assert (Hp2 : forall x, a < x < p -> x < lo) by (intros x; unfold p, Rmax; destruct (Rle_dec a lo); lra).
  assert (Hq2 : forall x, q < x < b -> hi < x) by (intros x; unfold q, Rmin; destruct (Rle_dec b hi); lra).
  rewrite Rmax_right by lra.
  replace (c * (q - p)) with (0 * (p - a) + (c * (q - p) + 0 * (b - q))) by ring.
  apply (area_join f a p b); [apply area_const; [lra|]; intros x Hx; apply Hout; [lra|left; apply Hp2, Hx]|].
  apply (area_join f p q b); [apply area_const; [lra|]; intros x Hx; apply Hin; lra|].
  apply area_const; [lra|]. intros x Hx. apply Hout; [lra|right; apply Hq2, Hx].
Qed.

Lemma area_half f a b v : area f a b v -> area (fun y => f y / 2) a b (v / 2).
Proof.
  intros H. replace (v / 2) with (scal (/ 2) v) by (unfold scal; cbn; unfold mult; cbn; lra).
  apply (is_RInt_ext (fun y => scal (/ 2) (f y))); [intros x _; unfold scal; cbn; unfold mult; cbn; lra|].
  apply (is_RInt_scal f a b (/ 2) v), H.
Qed.
