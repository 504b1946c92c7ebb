(** The reals of the standard library as a mathcomp field, so that matrices over them have
    a determinant and an inverse.  No model in this file. *)
From Coq Require Import Reals Lra ClassicalEpsilon FunctionalExtensionality.
From mathcomp Require Import all_ssreflect ssralg ssrnum.
Set Implicit Arguments.
Unset Strict Implicit.
Unset Printing Implicit Defensive.
Local Open Scope R_scope.

Definition Req_bool (x y : R) : bool := match Req_EM_T x y with left _ => true | right _ => false end.
Lemma Req_boolP : Equality.axiom Req_bool.
Proof. by move=> x y; rewrite /Req_bool; case: Req_EM_T => e; constructor. Qed.
Canonical R_eqType := EqType R (EqMixin Req_boolP).

Definition R_find (P : pred R) (n : nat) : option R :=
  match excluded_middle_informative (exists x, P x) with
  | left e => Some (proj1_sig (constructive_indefinite_description _ e))
  | right _ => None
  end.
Lemma R_find_sound P n x : R_find P n = Some x -> P x.
Proof. by rewrite /R_find; case: excluded_middle_informative => // e [<-]; case: constructive_indefinite_description. Qed.
Lemma R_find_complete (P : pred R) : (exists x, P x) -> exists n, R_find P n.
Proof. by move=> e; exists 0%N; rewrite /R_find; case: excluded_middle_informative. Qed.
Lemma R_find_ext (P Q : pred R) : P =1 Q -> R_find P =1 R_find Q.
Proof. by move=> e n; have -> : P = Q by apply: functional_extensionality. Qed.
Definition R_choiceMixin := Choice.Mixin R_find_sound R_find_complete R_find_ext.
Canonical R_choiceType := ChoiceType R R_choiceMixin.

Lemma R_addA : associative Rplus. Proof. by move=> x y z; rewrite Rplus_assoc. Qed.
Lemma R_addC : commutative Rplus. Proof. exact: Rplus_comm. Qed.
Lemma R_add0 : left_id 0 Rplus. Proof. exact: Rplus_0_l. Qed.
Lemma R_addN : left_inverse 0 Ropp Rplus. Proof. exact: Rplus_opp_l. Qed.
Definition R_zmodMixin := ZmodMixin R_addA R_addC R_add0 R_addN.
Canonical R_zmodType := ZmodType R R_zmodMixin.

Lemma R_mulA : associative Rmult. Proof. by move=> x y z; rewrite Rmult_assoc. Qed.
Lemma R_mulC : commutative Rmult. Proof. exact: Rmult_comm. Qed.
Lemma R_mul1 : left_id 1 Rmult. Proof. exact: Rmult_1_l. Qed.
Lemma R_mulDl : left_distributive Rmult Rplus. Proof. by move=> x y z; rewrite Rmult_plus_distr_r. Qed.
Lemma R_one : is_true (1 != 0 :> R). Proof. by apply/eqP; lra. Qed.
Definition R_ringMixin := ComRingMixin R_mulA R_mulC R_mul1 R_mulDl R_one.
Canonical R_ringType := RingType R R_ringMixin.
Canonical R_comRingType := ComRingType R R_mulC.

(** Division by zero is left alone, as mathcomp wants it; [Rinv] is used otherwise. *)
Definition R_inv (x : R) : R := if x == 0 then 0 else / x.
Lemma R_mulV : GRing.Field.axiom R_inv.
Proof. by move=> x nz; rewrite /R_inv (negbTE nz); apply: Rinv_l; apply/eqP. Qed.
Lemma R_inv0 : R_inv 0 = 0. Proof. by rewrite /R_inv eqxx. Qed.
Definition R_unitRingMixin := FieldUnitMixin R_mulV R_inv0.
Canonical R_unitRingType := UnitRingType R R_unitRingMixin.
Canonical R_comUnitRingType := [comUnitRingType of R].
Lemma R_fieldMixin : GRing.Field.mixin_of R_unitRingType. Proof. exact (fun x nz => nz). Qed.
Definition R_idomainMixin := FieldIdomainMixin R_fieldMixin.
Canonical R_idomainType := IdomainType R R_idomainMixin.
Canonical R_fieldType := FieldType R R_fieldMixin.

Definition R_leb (x y : R) : bool := match Rle_dec x y with left _ => true | right _ => false end.
Definition R_ltb (x y : R) : bool := match Rlt_dec x y with left _ => true | right _ => false end.
Lemma R_leP x y : reflect (x <= y) (R_leb x y).
Proof. by rewrite /R_leb; case: Rle_dec => e; constructor. Qed.
Lemma R_ltP x y : reflect (x < y) (R_ltb x y).
Proof. by rewrite /R_ltb; case: Rlt_dec => e; constructor. Qed.
Lemma R_le0_add x y : R_leb 0 x -> R_leb 0 y -> R_leb 0 (x + y).
Proof. by move=> /R_leP a /R_leP b; apply/R_leP; lra. Qed.
Lemma R_le0_mul x y : R_leb 0 x -> R_leb 0 y -> R_leb 0 (x * y).
Proof. by move=> /R_leP a /R_leP b; apply/R_leP; apply: Rmult_le_pos. Qed.
Lemma R_le0_anti x : R_leb 0 x -> R_leb x 0 -> x = 0.
Proof. by move=> /R_leP a /R_leP b; lra. Qed.
Lemma R_sub_ge0 x y : R_leb 0 (y + - x) = R_leb x y.
Proof. by apply/R_leP/R_leP; lra. Qed.
Lemma R_le0_total x : R_leb 0 x || R_leb x 0.
Proof. by apply/orP; case: (Rle_lt_dec 0 x) => h; [left|right]; apply/R_leP; lra. Qed.
Lemma R_lt_def x y : R_ltb x y = (y != x) && R_leb x y.
Proof.
  apply/R_ltP/andP => [h|[/eqP n /R_leP h]]; last by case: h => // e; congruence.
  by split; [apply/eqP; lra|apply/R_leP; lra].
Qed.
Lemma R_ge0_norm x : R_leb 0 x -> Rabs x = x.
Proof. by move=> /R_leP h; apply: Rabs_pos_eq. Qed.
Definition R_leMixin : realLeMixin R_idomainType :=
  RealLeMixin R_le0_add R_le0_mul R_le0_anti R_sub_ge0 R_le0_total Rabs_Ropp R_ge0_norm R_lt_def.
Lemma R_le_total : total R_leb.
Proof. by move=> x y; apply/orP; case: (Rle_lt_dec x y) => h; [left|right]; apply/R_leP; lra. Qed.

Canonical R_porderType := POrderType ring_display R R_leMixin.
Canonical R_latticeType := LatticeType R R_leMixin.
Canonical R_distrLatticeType := DistrLatticeType R R_leMixin.
Canonical R_orderType := OrderType R R_le_total.
Canonical R_numDomainType := NumDomainType R R_leMixin.
Canonical R_normedZmodType := NormedZmodType R R R_leMixin.
Canonical R_numFieldType := [numFieldType of R].
Canonical R_realDomainType := [realDomainType of R].
Canonical R_realFieldType := [realFieldType of R].

(** The operations of both libraries agree. *)
Import GRing.Theory Num.Theory.
Lemma RaddE (x y : R) : Rplus x y = GRing.add x y. Proof. by []. Qed.
Lemma RmulE (x y : R) : Rmult x y = GRing.mul x y. Proof. by []. Qed.
Lemma RoppE (x : R) : Ropp x = GRing.opp x. Proof. by []. Qed.
Lemma RinvE (x : R) : x <> 0 -> GRing.inv x = / x.
Proof. by move=> /eqP h; rewrite /GRing.inv /= /R_inv (negbTE h). Qed.
Lemma RleP (x y : R) : reflect (Rle x y) (@Order.le ring_display R_porderType x y). Proof. exact: R_leP. Qed.
Lemma RltP (x y : R) : reflect (Rlt x y) (@Order.lt ring_display R_porderType x y). Proof. exact: R_ltP. Qed.
