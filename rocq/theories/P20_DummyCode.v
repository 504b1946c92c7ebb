(** Property C47: dummy coding. *)
From Verif Require Import DummyCode BaseFacts PrimFacts ListFacts P17_Parallel.
From Coq Require Import List ZArith Reals Bool Lia Lra.
Import ListNotations.
Local Open Scope Z_scope.

(* ------------------------------------------------------------------ *)
(** ** Specification *)

(** Entry [v] is a category among [0 .. k-1]. *)
Definition category (k : Z) (v : ext) : Prop := exists z, v = Fin (IZR z) /\ 0 <= z < k.
(** Every discrete entry of the row is one of its categories. *)
Definition codable (discretes : dict Z) (x : list ext) : Prop :=
  forall i v k, nth_error x i = Some v -> dget (Z.of_nat i) discretes = Some k -> category k v.
(** The code of category [z] among [k]: [k - 1] entries, all zero for the last category. *)
Definition one_hot (k z : Z) : list ext :=
  map (fun j => if Z.of_nat j =? z then Fin 1 else Fin 0) (seq 0 (Z.to_nat (k - 1))).
(** The code of a row, entry by entry. *)
Definition coded (discretes : dict Z) (x : list ext) (i : nat) (block : list ext) : Prop :=
  exists v, nth_error x i = Some v /\
    match dget (Z.of_nat i) discretes with
    | None => block = [v]
    | Some k => exists z, v = Fin (IZR z) /\ block = one_hot k z
    end.
(** The length of the code of a row with [n] entries. *)
Definition width (discretes : dict Z) (n : nat) : nat :=
  list_sum (map (fun i => match dget (Z.of_nat i) discretes with None => 1%nat | Some k => Z.to_nat (k - 1) end) (seq 0 n)).
(** What a bad entry raises. *)
Definition complaint (k : Z) (v : ext) (e : exn) : Prop :=
  match v with
  | NaN => e = ValueError
  | PInf | NInf => e = OverflowError
  | Fin r => (e = TypeError /\ forall z, r <> IZR z) \/ (e = ValueError /\ exists z, r = IZR z /\ ~ 0 <= z < k)
  end.

(* ------------------------------------------------------------------ *)
(** ** One entry *)

Lemma Int_part_IZR z : Int_part (IZR z) = z.
Proof.
  unfold Int_part. assert (z + 1 = up (IZR z)) as <-; [|lia]. apply tech_up; rewrite plus_IZR; lra.
Qed.
Lemma trunc_IZR z : trunc (IZR z) = z.
Proof.
  unfold trunc. destruct (Rleb 0 (IZR z)); [apply Int_part_IZR|]. rewrite <- opp_IZR, Int_part_IZR. lia.
Qed.
Lemma one_hot_nth k z j : (j < Z.to_nat (k - 1))%nat -> nth_error (one_hot k z) j = Some (if Z.of_nat j =? z then Fin 1 else Fin 0).
Proof.
  intros Hj. unfold one_hot.
  assert (E : nth_error (seq 0 (Z.to_nat (k - 1))) j = Some j).
  { rewrite (nth_error_nth' _ 0%nat) by (rewrite seq_length; exact Hj). rewrite seq_nth by exact Hj. reflexivity. }
  rewrite (map_nth_error (fun j => if Z.of_nat j =? z then Fin 1 else Fin 0) _ _ E). reflexivity.
Qed.
Lemma one_hot_set k z : 0 <= z -> z < k ->
  (if Rltb (IZR z) (IZR (k - 1)) then set_at (repeat (Fin 0) (Z.to_nat (k - 1))) (Z.to_nat z) (Fin 1) else repeat (Fin 0) (Z.to_nat (k - 1)))
  = one_hot k z.
Proof.
  intros H1 H2. assert (L : length (repeat (Fin 0) (Z.to_nat (k - 1))) = Z.to_nat (k - 1)) by apply repeat_length.
  assert (G : forall n, (forall j, (j < n)%nat -> Z.of_nat j <> z) -> repeat (Fin 0) n = map (fun j => if Z.of_nat j =? z then Fin 1 else Fin 0) (seq 0 n)).
  { clear. intros n. assert (A : forall m, (forall j, (m <= j < m + n)%nat -> Z.of_nat j <> z) -> repeat (Fin 0) n = map (fun j => if Z.of_nat j =? z then Fin 1 else Fin 0) (seq m n)).
    { induction n as [|n IH]; intros m H; [reflexivity|]. cbn [repeat seq map].
      destruct (Z.eqb_spec (Z.of_nat m) z) as [E|E]; [exfalso; apply (H m); [lia|exact E]|]. f_equal. apply IH. intros j Hj. apply H. lia. }
    intros H. apply A. intros j Hj. apply H. lia. }
  destruct (Rltb (IZR z) (IZR (k - 1))) eqn:E.
  - apply Rltb_true in E. apply lt_IZR in E. apply nth_ext with (d := Fin 0) (d' := Fin 0).
    + rewrite set_at_length, L. unfold one_hot. rewrite map_length, seq_length. reflexivity.
    + intros j Hj. rewrite set_at_length, L in Hj.
      rewrite (nth_error_nth (one_hot k z) j (Fin 0) (one_hot_nth k z j Hj)).
      destruct (Z.eqb_spec (Z.of_nat j) z) as [<-|Hne].
      * rewrite Nat2Z.id. apply nth_error_nth. apply set_at_same. rewrite L. exact Hj.
      * pose proof (set_at_other (repeat (Fin 0) (Z.to_nat (k - 1))) (Z.to_nat z) (Fin 1) j) as O.
        assert (j <> Z.to_nat z) as Hjz by (intros ->; apply Hne; lia). specialize (O Hjz).
        destruct (nth_error (repeat (Fin 0) (Z.to_nat (k - 1))) j) as [v|] eqn:Ev; [|apply nth_error_None in Ev; lia].
        rewrite (nth_error_nth _ _ (Fin 0) O). apply nth_error_In, repeat_spec in Ev. exact Ev.
  - apply Rltb_false in E. assert (~ z < k - 1) by (intros H; apply E; apply IZR_lt; exact H). apply G. intros j Hj. lia.
Qed.
Lemma as_code_spec d i v : match dget i d with
  | None => as_code d i v = Ok [v]
  | Some k => match as_code d i v with
              | Ok c => exists z, v = Fin (IZR z) /\ 0 <= z < k /\ c = one_hot k z
              | Err e => complaint k v e
              end
  end.
Proof.
  unfold as_code. destruct (dget i d) as [k|]; [|reflexivity]. destruct v as [r| | |]; try reflexivity.
  destruct (Reqb r (IZR (trunc r))) eqn:E; cbn [negb].
  - apply Reqb_true in E. set (z := trunc r) in *. clearbody z. subst r.
    destruct (Rleb 0 (IZR z)) eqn:E1; [destruct (Rltb (IZR z) (IZR k)) eqn:E2|]; cbn [andb negb].
    + apply Rleb_true in E1. apply Rltb_true in E2. apply le_IZR in E1. apply lt_IZR in E2.
      exists z. split; [reflexivity|]. split; [lia|]. apply one_hot_set; assumption.
    + right. split; [reflexivity|]. exists z. split; [reflexivity|]. intros [_ H]. apply IZR_lt in H. apply Rltb_false in E2. contradiction.
    + right. split; [reflexivity|]. exists z. split; [reflexivity|]. intros [H _]. apply IZR_le in H. apply Rleb_false in E1. contradiction.
  - left. split; [reflexivity|]. intros z ->. rewrite trunc_IZR in E. apply Reqb_false in E. congruence.
Qed.

Lemma one_hot_length k z : length (one_hot k z) = Z.to_nat (k - 1).
Proof. unfold one_hot. rewrite map_length, seq_length. reflexivity. Qed.
Lemma one_hot_inj k z z' : 0 <= z < k -> 0 <= z' < k -> one_hot k z = one_hot k z' -> z = z'.
Proof.
  assert (A : forall z z', 0 <= z < k - 1 -> one_hot k z = one_hot k z' -> z = z').
  { clear. intros z z' H E. assert (Hj : (Z.to_nat z < Z.to_nat (k - 1))%nat) by lia.
    pose proof (one_hot_nth k z _ Hj) as E1. rewrite E, (one_hot_nth k z' _ Hj), !Z2Nat.id in E1 by lia. rewrite Z.eqb_refl in E1.
    destruct (Z.eqb_spec z z'); [assumption|]. injection E1 as E1. exfalso. lra. }
  intros H H' E. destruct (Z.eq_dec z (k - 1)) as [->|]; [|apply A; [lia|exact E]].
  destruct (Z.eq_dec z' (k - 1)) as [->|]; [reflexivity|]. symmetry. apply A; [lia|auto].
Qed.

(* ------------------------------------------------------------------ *)
(** ** Rows *)

(** The same statements with the entries counted from [j]. *)
Lemma codes_spec d : forall x j,
  match codes d j x with
  | Ok cs => length cs = length x /\ forall i c, nth_error cs i = Some c -> exists v, nth_error x i = Some v /\
      match dget (j + Z.of_nat i) d with
      | None => c = [v]
      | Some k => exists z, v = Fin (IZR z) /\ 0 <= z < k /\ c = one_hot k z
      end
  | Err e => exists i v k, nth_error x i = Some v /\ dget (j + Z.of_nat i) d = Some k /\ complaint k v e /\
      forall i' v' k', (i' < i)%nat -> nth_error x i' = Some v' -> dget (j + Z.of_nat i') d = Some k' -> category k' v'
  end.
Proof.
  induction x as [|v x IH]; intros j; cbn [codes].
  - split; [reflexivity|]. intros [|i]; discriminate.
  - pose proof (as_code_spec d j v) as A. specialize (IH (j + 1)).
    assert (Sh : forall i, j + 1 + Z.of_nat i = j + Z.of_nat (S i)) by (intros; lia).
    assert (Z0 : j + Z.of_nat 0 = j) by lia.
    destruct (as_code d j v) as [c|e] eqn:E; cbn [rbind].
    + assert (C0 : match dget j d with None => c = [v] | Some k => exists z, v = Fin (IZR z) /\ 0 <= z < k /\ c = one_hot k z end).
      { destruct (dget j d); [exact A|]. injection A as ->. reflexivity. }
      destruct (codes d (j + 1) x) as [cs|e]; cbn [rbind].
      * destruct IH as [L IH]. split; [cbn; lia|]. intros [|i] c' Hc; cbn [nth_error] in Hc |- *.
        -- injection Hc as <-. exists v. split; [reflexivity|]. rewrite Z0. exact C0.
        -- rewrite <- Sh. apply IH. exact Hc.
      * destruct IH as [i [v' [k [I1 [I2 [I3 I4]]]]]]. exists (S i), v', k. rewrite <- Sh. split; [exact I1|]. split; [exact I2|]. split; [exact I3|].
        intros [|i'] v0 k0 Hi Hv Hk.
        -- cbn in Hv. injection Hv as <-. rewrite Z0 in Hk. rewrite Hk in C0. destruct C0 as [z [Cz [Cr _]]]. exists z. auto.
        -- rewrite <- Sh in Hk. apply (I4 i' v0 k0); [lia|exact Hv|exact Hk].
    + destruct (dget j d) as [k|] eqn:Ek; [|discriminate]. exists 0%nat, v, k. rewrite Z0. split; [reflexivity|]. split; [exact Ek|]. split; [exact A|].
      intros i' v' k' Hi. lia.
Qed.

Lemma codes_nil : forall x j, codes [] j x = Ok (map (fun v => [v]) x).
Proof. induction x as [|v x IH]; intros j; cbn; [reflexivity|]. rewrite IH. reflexivity. Qed.
Lemma concat_singletons (x : list ext) : concat (map (fun v => [v]) x) = x.
Proof. induction x as [|v x IH]; cbn; [reflexivity|]. rewrite IH. reflexivity. Qed.
Lemma dummy_codes x d : dummy_code x d = rbind (codes d 0 x) (fun cs => Ok (concat cs)).
Proof. unfold dummy_code. destruct d; [|reflexivity]. rewrite codes_nil. cbn. rewrite concat_singletons. reflexivity. Qed.

Lemma complaint_bad k v e : complaint k v e -> ~ category k v.
Proof.
  intros C [z [-> H]]. cbn in C. destruct C as [[_ C]|[_ [z' [E C]]]]; [exact (C z eq_refl)|].
  apply eq_IZR in E. subst z'. exact (C H).
Qed.

(** Exactly the rows whose discrete entries are categories are accepted. *)
Theorem C47_accepts x d : (exists c, dummy_code x d = Ok c) <-> codable d x.
Proof.
  rewrite dummy_codes. pose proof (codes_spec d x 0) as S. destruct (codes d 0 x) as [cs|e]; cbn [rbind]; split.
  - intros _ i v k Ev Ek. destruct S as [L S]. assert (Hi : (i < length cs)%nat) by (rewrite L; apply nth_error_Some; congruence).
    destruct (nth_error cs i) as [c|] eqn:Ec; [|apply nth_error_None in Ec; lia]. destruct (S i c Ec) as [v' [Ev' M]].
    rewrite Ev in Ev'. injection Ev' as <-. rewrite Z.add_0_l, Ek in M. destruct M as [z [Mz [Mr _]]]. exists z. auto.
  - intros _. eauto.
  - intros [c Hc]. discriminate.
  - intros C. exfalso. destruct S as [i [v [k [Ev [Ek [Cp _]]]]]]. rewrite Z.add_0_l in Ek. exact (complaint_bad _ _ _ Cp (C i v k Ev Ek)).
Qed.
(** A rejected row raises what its first bad entry asks for. *)
Theorem C47_rejects x d e : dummy_code x d = Err e ->
  exists i v k, nth_error x i = Some v /\ dget (Z.of_nat i) d = Some k /\ complaint k v e /\
    forall i' v' k', (i' < i)%nat -> nth_error x i' = Some v' -> dget (Z.of_nat i') d = Some k' -> category k' v'.
Proof.
  rewrite dummy_codes. pose proof (codes_spec d x 0) as S. destruct (codes d 0 x) as [cs|e']; cbn [rbind]; [discriminate|].
  intros E. injection E as ->. destruct S as [i [v [k [A [B [C D]]]]]]. exists i, v, k. rewrite Z.add_0_l in B. split; [exact A|]. split; [exact B|].
  split; [exact C|]. intros i' v' k' Hi Hv Hk. apply (D i' v' k' Hi Hv). rewrite Z.add_0_l. exact Hk.
Qed.

(** The code is made of one block for each entry. *)
Theorem C47_blocks x d c : dummy_code x d = Ok c -> exists blocks, c = concat blocks /\ length blocks = length x /\
  forall i b, nth_error blocks i = Some b -> coded d x i b.
Proof.
  rewrite dummy_codes. pose proof (codes_spec d x 0) as S. destruct (codes d 0 x) as [cs|e]; cbn [rbind]; [|discriminate].
  intros E. injection E as <-. destruct S as [L S]. exists cs. split; [reflexivity|]. split; [exact L|]. intros i b Hb.
  destruct (S i b Hb) as [v [Ev M]]. exists v. split; [exact Ev|]. rewrite Z.add_0_l in M. destruct (dget (Z.of_nat i) d) as [k|]; [|exact M].
  destruct M as [z [M1 [_ M2]]]. eauto.
Qed.

Lemma concat_length_map {A} (bs : list (list A)) : length (concat bs) = list_sum (map (@length A) bs).
Proof. induction bs as [|b bs IH]; cbn; [reflexivity|]. rewrite app_length, IH. reflexivity. Qed.
Lemma nth_error_seq0 n i : (i < n)%nat -> nth_error (seq 0 n) i = Some i.
Proof. intros H. rewrite (nth_error_nth' _ 0%nat) by (rewrite seq_length; exact H). rewrite seq_nth by exact H. reflexivity. Qed.
Lemma list_eq_nth {A} (l l' : list A) : length l = length l' -> (forall i a b, nth_error l i = Some a -> nth_error l' i = Some b -> a = b) -> l = l'.
Proof.
  revert l'. induction l as [|a l IH]; intros [|b l'] L H; cbn in L; try lia; [reflexivity|].
  f_equal; [exact (H 0%nat a b eq_refl eq_refl)|]. apply IH; [lia|]. intros i. exact (H (S i)).
Qed.
Lemma coded_length d x i b : coded d x i b -> length b = match dget (Z.of_nat i) d with None => 1%nat | Some k => Z.to_nat (k - 1) end.
Proof.
  intros [v [_ M]]. destruct (dget (Z.of_nat i) d) as [k|]; [|rewrite M; reflexivity]. destruct M as [z [_ ->]]. apply one_hot_length.
Qed.

(** All codes of rows with [n] entries have the same length. *)
Theorem C47_length x d c : dummy_code x d = Ok c -> length c = width d (length x).
Proof.
  intros E. destruct (C47_blocks x d c E) as [bs [-> [L B]]]. rewrite concat_length_map. unfold width. f_equal.
  apply list_eq_nth; [rewrite !map_length, seq_length; exact L|]. intros i a b Ha Hb.
  rewrite nth_error_map in Ha. destruct (nth_error bs i) as [bl|] eqn:Eb; [|discriminate]. cbn in Ha. injection Ha as <-.
  assert (Hi : (i < length x)%nat) by (rewrite <- L; apply nth_error_Some; congruence).
  rewrite nth_error_map, (nth_error_seq0 _ _ Hi) in Hb. cbn in Hb. injection Hb as <-. apply (coded_length d x i). apply B. exact Eb.
Qed.

Lemma concat_inj {A} (bs cs : list (list A)) : map (@length A) bs = map (@length A) cs -> concat bs = concat cs -> bs = cs.
Proof.
  revert cs. induction bs as [|b bs IH]; intros [|c cs] M E; cbn in M; try discriminate; [reflexivity|]. injection M as M1 M2. cbn in E.
  assert (E' : firstn (length b) (b ++ concat bs) = firstn (length b) (c ++ concat cs)) by (rewrite E; reflexivity).
  assert (E'' : skipn (length b) (b ++ concat bs) = skipn (length b) (c ++ concat cs)) by (rewrite E; reflexivity).
  rewrite M1 in E' at 2. rewrite M1 in E'' at 2. rewrite !firstn_app, !Nat.sub_diag, !firstn_all in E'. cbn in E'. rewrite !app_nil_r in E'.
  rewrite !skipn_app, !Nat.sub_diag, !skipn_all in E''. cbn in E''. subst c. f_equal. apply IH; assumption.
Qed.
(** Different rows have different codes. *)
Theorem C47_injective x x' d c : length x = length x' -> dummy_code x d = Ok c -> dummy_code x' d = Ok c -> x = x'.
Proof.
  intros L E E'.
  assert (Cx : codable d x) by (apply C47_accepts; eauto). assert (Cx' : codable d x') by (apply C47_accepts; eauto).
  destruct (C47_blocks x d c E) as [bs [-> [Lb B]]]. destruct (C47_blocks x' d _ E') as [bs' [Eq [Lb' B']]].
  assert (bs = bs') as <-.
  { apply concat_inj; [|exact Eq]. apply list_eq_nth; [rewrite !map_length; lia|]. intros i a b Ha Hb. rewrite nth_error_map in Ha, Hb.
    destruct (nth_error bs i) eqn:E1; [|discriminate]. destruct (nth_error bs' i) eqn:E2; [|discriminate]. cbn in Ha, Hb. injection Ha as <-. injection Hb as <-.
    rewrite (coded_length _ _ _ _ (B i _ E1)), (coded_length _ _ _ _ (B' i _ E2)). reflexivity. }
  apply list_eq_nth; [exact L|]. intros i a b Ha Hb.
  assert (Hi : (i < length bs)%nat) by (rewrite Lb; apply nth_error_Some; congruence).
  destruct (nth_error bs i) as [bl|] eqn:Eb; [|apply nth_error_None in Eb; lia].
  destruct (B i bl Eb) as [v [Ev M]]. destruct (B' i bl Eb) as [v' [Ev' M']]. rewrite Ha in Ev. injection Ev as <-. rewrite Hb in Ev'. injection Ev' as <-.
  destruct (dget (Z.of_nat i) d) as [k|] eqn:Ek; [|congruence]. destruct M as [z [-> Mz]]. destruct M' as [z' [-> Mz']].
  destruct (Cx i _ k Ha Ek) as [w [Ew Hw]]. destruct (Cx' i _ k Hb Ek) as [w' [Ew' Hw']].
  injection Ew as Ew. injection Ew' as Ew'. apply eq_IZR in Ew. apply eq_IZR in Ew'. subst w w'. f_equal. f_equal.
  apply (one_hot_inj k); [exact Hw|exact Hw'|congruence].
Qed.

(* ------------------------------------------------------------------ *)
(** ** The rows of the linear regressions *)

(** The declared categories make sense. *)
Definition declared (types : list stype) : Prop := forall k, In (Categories k) types -> 1 <= k.
(** What the target of a row must be. *)
Definition target_ok (o : Z) (targets : option (dict ext)) : Prop :=
  forall t, targets = Some t -> t <> [] -> exists v, dget o t = Some v /\ v <> NaN.
(** The inputs of a row, in the order of the constructor. *)
Definition reads (ins : list Z) (inputs : dict ext) (y : list ext) : Prop :=
  Forall2 (fun c v => dget c inputs = Some v) ins y.

(** The two constructors differ in how many categories they add to the declared ones. *)
Definition counts_as (count : stype -> res (Z * option Z)) (extra : Z) : Prop :=
  count Numeric = Ok (1, None) /\ (forall k, count (Categories k) = Ok (k + extra - 1, Some (k + extra))) /\
  (exists e, count Neither = Err e).
Lemma linreg_counts : counts_as linreg_count 1.
Proof. split; [reflexivity|]. split; [|eexists; reflexivity]. intros k. cbn. replace (k + 1 - 1) with k by lia. reflexivity. Qed.
Lemma ols_counts : counts_as ols_count 0.
Proof. split; [reflexivity|]. split; [|eexists; reflexivity]. intros k. cbn. rewrite Z.add_0_r. reflexivity. Qed.

Lemma rsequence_spec {X Y} (f : X -> res Y) l : match rsequence (map f l) with
  | Ok ys => Forall2 (fun x y => f x = Ok y) l ys
  | Err e => exists x, In x l /\ f x = Err e
  end.
Proof.
  induction l as [|x l IH]; cbn [map rsequence]; [constructor|]. destruct (f x) as [y|e] eqn:E; cbn [rbind].
  - destruct (rsequence (map f l)) as [ys|e]; cbn [rbind]; [constructor; assumption|]. destruct IH as [x' [H1 H2]]. exists x'. split; [right; exact H1|exact H2].
  - exists x. split; [left; reflexivity|exact E].
Qed.
Lemma reg_init_spec count outs ins types g : reg_init count outs ins types = Ok g -> exists o pc, outs = [o] /\ g_out g = o /\ g_in g = ins /\
  ~ In o ins /\ length types = length ins /\ Forall2 (fun t p => count t = Ok p) types pc /\
  g_p g = zsum (map fst pc) + 1 /\ g_disc g = discretes_of 0 (map snd pc).
Proof.
  unfold reg_init. destruct outs as [|o [|o' outs]]; try discriminate. destruct ins as [|i ins]; [discriminate|].
  destruct (zmem o (i :: ins)) eqn:Eo; [discriminate|]. destruct (Nat.eqb_spec (length types) (length (i :: ins))) as [El|]; cbn [negb]; [|discriminate].
  pose proof (rsequence_spec count types) as R. destruct (rsequence (map count types)) as [pc|e]; cbn [rbind]; [|discriminate].
  intros E. injection E as <-. exists o, pc. cbn [g_out g_in g_p g_disc]. repeat split; try assumption. apply zmem_false. exact Eo.
Qed.
Lemma discretes_below : forall counts j i, i < j -> dget i (discretes_of j counts) = None.
Proof.
  induction counts as [|[c|] counts IH]; intros j i H; cbn [discretes_of]; [reflexivity| |apply IH; lia].
  destruct (c =? 0); [apply IH; lia|]. cbn [dget]. destruct (Z.eqb_spec i j); [lia|]. apply IH. lia.
Qed.
Lemma discretes_get : forall counts j i, dget (j + Z.of_nat i) (discretes_of j counts) =
  match nth_error counts i with Some (Some c) => if c =? 0 then None else Some c | _ => None end.
Proof.
  induction counts as [|c counts IH]; intros j i; [destruct i; reflexivity|]. cbn [discretes_of].
  destruct i as [|i].
  - replace (j + Z.of_nat 0) with j by lia. cbn [nth_error]. destruct c as [c|]; [|apply discretes_below; lia].
    destruct (c =? 0); [apply discretes_below; lia|]. cbn [dget]. rewrite Z.eqb_refl. reflexivity.
  - cbn [nth_error]. replace (j + Z.of_nat (S i)) with (j + 1 + Z.of_nat i) by lia. rewrite <- (IH (j + 1) i). destruct c as [c|]; [|reflexivity].
    destruct (c =? 0); [reflexivity|]. cbn [dget]. destruct (Z.eqb_spec (j + 1 + Z.of_nat i) j); [lia|reflexivity].
Qed.
Lemma Forall2_nth_l {X Y} (R : X -> Y -> Prop) l l' i x : Forall2 R l l' -> nth_error l i = Some x -> exists y, nth_error l' i = Some y /\ R x y.
Proof.
  intros H. revert i. induction H as [|a b l l' Hab H IH]; intros [|i] E; cbn in E |- *; try discriminate; [injection E as <-; eauto|apply IH; exact E].
Qed.
Lemma Forall2_nth_r {X Y} (R : X -> Y -> Prop) l l' i y : Forall2 R l l' -> nth_error l' i = Some y -> exists x, nth_error l i = Some x /\ R x y.
Proof.
  intros H. revert i. induction H as [|a b l l' Hab H IH]; intros [|i] E; cbn in E |- *; try discriminate; [injection E as <-; eauto|apply IH; exact E].
Qed.
Lemma Forall2_len {X Y} (R : X -> Y -> Prop) l l' : Forall2 R l l' -> length l = length l'.
Proof. induction 1; cbn; congruence. Qed.

Section Reg.
  Context (count : stype -> res (Z * option Z)) (extra : Z) (Hc : counts_as count extra) (He : 0 <= extra)
    (outs ins : list Z) (types : list stype) (g : reg) (Hg : reg_init count outs ins types = Ok g) (Hd : declared types).

  Lemma disc_get i : dget (Z.of_nat i) (g_disc g) = match nth_error types i with Some (Categories k) => Some (k + extra) | _ => None end.
  Proof.
    destruct (reg_init_spec _ _ _ _ _ Hg) as [o [pc [_ [_ [_ [_ [Hl [F [_ ->]]]]]]]]].
    replace (Z.of_nat i) with (0 + Z.of_nat i) by lia. rewrite discretes_get, nth_error_map.
    destruct Hc as [C1 [C2 [e C3]]]. destruct (nth_error types i) as [t|] eqn:Et.
    - destruct (Forall2_nth_l _ _ _ _ _ F Et) as [p [Ep Hp]]. rewrite Ep. cbn [option_map]. destruct t as [|k|].
      + rewrite C1 in Hp. injection Hp as <-. reflexivity.
      + rewrite C2 in Hp. injection Hp as <-. cbn [snd]. apply nth_error_In in Et. specialize (Hd k Et).
        destruct (Z.eqb_spec (k + extra) 0); [lia|reflexivity].
      + congruence.
    - destruct (nth_error pc i) as [p|] eqn:Ep; [|reflexivity]. destruct (Forall2_nth_r _ _ _ _ _ F Ep) as [t [Et' _]]. congruence.
  Qed.
  Lemma width_p : Z.of_nat (width (g_disc g) (length ins)) = g_p g - 1.
  Proof.
    destruct (reg_init_spec _ _ _ _ _ Hg) as [o [pc [_ [_ [_ [_ [Hl [F [-> _]]]]]]]]]. rewrite <- Hl. unfold width.
    rewrite (map_ext_in _ (fun i => match nth_error types i with Some (Categories k) => Z.to_nat (k + extra - 1) | _ => 1%nat end)).
    2: { intros i _. rewrite disc_get. destruct (nth_error types i) as [[|k|]|]; reflexivity. }
    replace (zsum (map fst pc) + 1 - 1) with (zsum (map fst pc)) by lia.
    assert (G : forall n m ts, (forall i, nth_error ts i = nth_error (skipn m types) i) -> length ts = n ->
              forall ps, Forall2 (fun t p => count t = Ok p) ts ps ->
              Z.of_nat (list_sum (map (fun i => match nth_error types i with Some (Categories k) => Z.to_nat (k + extra - 1) | _ => 1%nat end) (seq m n))) = zsum (map fst ps)).
    { clear F pc. induction n as [|n IH]; intros m ts Hts Hn ps F.
      - destruct ts; [|discriminate]. inversion F; subst. reflexivity.
      - destruct ts as [|t ts]; [discriminate|]. inversion F as [|? p ? ps' Hp F']; subst. cbn [seq map].
        change (list_sum (?a :: ?l)) with (a + list_sum l)%nat. cbn [fst zsum fold_right]. rewrite Nat2Z.inj_add.
        assert (St : nth_error types m = Some t).
        { pose proof (Hts 0%nat) as H0. cbn in H0. rewrite <- (firstn_skipn m types). rewrite nth_error_app2; rewrite firstn_length.
          - replace (m - Nat.min m (length types))%nat with 0%nat; [auto|]. destruct (Nat.le_gt_cases m (length types)); [lia|].
            rewrite skipn_all2 in H0 by lia. discriminate.
          - lia. }
        rewrite (IH (S m) ts) with (ps := ps'); [| |cbn in Hn; lia|exact F'].
        + change (fold_right Z.add 0 (map fst ps')) with (zsum (map fst ps')). f_equal. rewrite St. destruct Hc as [C1 [C2 [e C3]]].
          destruct t as [|k|]; [rewrite C1 in Hp; injection Hp as <-; reflexivity| |congruence].
          rewrite C2 in Hp. injection Hp as <-. cbn [fst]. apply nth_error_In in St. specialize (Hd k St). lia.
        + intros i. specialize (Hts (S i)). cbn in Hts. rewrite Hts. clear. revert types. induction m as [|m IH]; intros [|t types]; cbn; try reflexivity; try (destruct i; reflexivity). apply IH. }
    apply (G (length types) 0%nat types); [reflexivity|reflexivity|exact F].
  Qed.
  Lemma row_codable y : length y = length ins ->
    (codable (g_disc g) y <-> forall i k v, nth_error types i = Some (Categories k) -> nth_error y i = Some v -> category (k + extra) v).
  Proof.
    intros L. unfold codable. split.
    - intros H i k v Et Ev. apply (H i v); [exact Ev|]. rewrite disc_get, Et. reflexivity.
    - intros H i v k Ev Ek. rewrite disc_get in Ek. destruct (nth_error types i) as [[|k'|]|] eqn:Et; try discriminate. injection Ek as <-. eauto.
  Qed.
  Lemma row_length y c : length y = length ins -> dummy_code y (g_disc g) = Ok c -> Z.of_nat (length c) =? g_p g - 1 = true.
  Proof. intros L E. rewrite (C47_length _ _ _ E), L, width_p. apply Z.eqb_refl. Qed.
End Reg.

Lemma reads_get ins inputs : (forall c, In c ins -> In c (dkeys inputs)) -> exists y, reads ins inputs y.
Proof.
  intros H. induction ins as [|c ins IH]; [exists []; constructor|]. destruct IH as [y Hy]; [intros c' Hc'; apply H; right; exact Hc'|].
  destruct (in_dkeys_Some _ _ (H c (or_introl eq_refl))) as [v Hv]. exists (v :: y). constructor; assumption.
Qed.
Lemma reads_rsequence (f : Z -> res ext) ins inputs y : (forall c v, dget c inputs = Some v -> f c = Ok v) -> reads ins inputs y ->
  rsequence (map f ins) = Ok y.
Proof.
  intros Hf H. induction H as [|c v ins y Hc H IH]; cbn; [reflexivity|]. rewrite (Hf _ _ Hc), IH. reflexivity.
Qed.
Lemma reads_unique ins inputs y y' : reads ins inputs y -> reads ins inputs y' -> y = y'.
Proof. intros H. revert y'. induction H; intros y' H'; inversion H'; subst; [reflexivity|]. f_equal; [congruence|auto]. Qed.
Lemma same_keys_spec a b : same_keys a b = true <-> forall c, In c a <-> In c b.
Proof.
  unfold same_keys. rewrite andb_true_iff, !forallb_forall. split.
  - intros [H1 H2] c. split; intros H; apply zmem_in; [apply H1|apply H2]; exact H.
  - intros H. split; intros c Hc; apply zmem_in; apply H; exact Hc.
Qed.
Lemma target_of_spec o targets : match target_of o targets with
  | Ok x => target_ok o targets /\ (forall t, targets = Some t -> t <> [] -> x = dget o t) /\ (targets = None \/ targets = Some [] -> x = None)
  | Err e => e = ValueError /\ ~ target_ok o targets
  end.
Proof.
  unfold target_of, target_ok. destruct targets as [[|[c v] t]|].
  - split; [|split]; intros; try congruence.
  - destruct (dget o ((c, v) :: t)) as [x|] eqn:E.
    + destruct x as [r| | |]; cbn [eisnan].
      1-3: split; [intros t' Ht' _; injection Ht' as <-; eexists; split; [exact E|discriminate]|]; split; [intros t' Ht' _; injection Ht' as <-; auto|intros [H|H]; discriminate].
      split; [reflexivity|]. intros H. destruct (H _ eq_refl ltac:(discriminate)) as [x [E' N]]. congruence.
    + split; [reflexivity|]. intros H. destruct (H _ eq_refl ltac:(discriminate)) as [x [E' N]]. congruence.
  - split; [|split]; intros; congruence.
Qed.

(** LinearRegression.preprocess accepts exactly the rows with the right inputs, whose
    nominal entries are a declared category or the one added to them; it never fails its
    own assertion. *)
Theorem C47_linreg outs ins types g targets inputs :
  reg_init linreg_count outs ins types = Ok g -> declared types ->
  match linreg_preprocess g targets inputs with
  | Ok (x, row) => exists y c, row = Fin 1 :: c /\ reads ins inputs y /\ dummy_code y (g_disc g) = Ok c /\
      Z.of_nat (length row) = g_p g /\ (forall t, targets = Some t -> t <> [] -> x = dget (g_out g) t)
  | Err e => e <> AssertionError
  end /\
  ((exists r, linreg_preprocess g targets inputs = Ok r) <->
   ~ In (g_out g) (dkeys inputs) /\ target_ok (g_out g) targets /\ (forall c, In c (dkeys inputs) <-> In c ins) /\
   forall i c k v, nth_error ins i = Some c -> nth_error types i = Some (Categories k) -> dget c inputs = Some v -> category (k + 1) v).
Proof.
  intros Hg Hd. destruct (reg_init_spec _ _ _ _ _ Hg) as [o [pc [_ [Ho [Hi [_ [Hl _]]]]]]]. unfold linreg_preprocess.
  destruct (dmem (g_out g) inputs) eqn:Eo.
  { split; [discriminate|]. split; [intros [r Hr]; discriminate|]. intros [H _]. exfalso. apply H. apply dmem_in. exact Eo. }
  assert (No : ~ In (g_out g) (dkeys inputs)) by (intros H; apply dmem_in in H; congruence).
  pose proof (target_of_spec (g_out g) targets) as T. destruct (target_of (g_out g) targets) as [x|e]; cbn [rbind].
  2: { destruct T as [-> T]. split; [discriminate|]. split; [intros [r Hr]; discriminate|]. tauto. }
  destruct T as [T1 [T2 _]]. destruct (same_keys (dkeys inputs) (g_in g)) eqn:Ek; cbn [negb].
  2: { split; [discriminate|]. split; [intros [r Hr]; discriminate|]. intros [_ [_ [H _]]]. rewrite <- Hi in H. rewrite <- same_keys_spec in H. congruence. }
  rewrite same_keys_spec in Ek. rewrite Hi in Ek |- *.
  destruct (reads_get ins inputs) as [y Hy]; [intros c; apply Ek|].
  rewrite (reads_rsequence _ ins inputs y) by (first [exact Hy|intros c v ->; reflexivity]). cbn [rbind].
  assert (Ly : length y = length ins) by (symmetry; apply (Forall2_len _ _ _ Hy)).
  pose proof (row_codable _ _ linreg_counts ltac:(lia) _ _ _ _ Hg Hd y Ly) as RC.
  assert (RC' : (exists c, dummy_code y (g_disc g) = Ok c) <->
    (forall i c k v, nth_error ins i = Some c -> nth_error types i = Some (Categories k) -> dget c inputs = Some v -> category (k + 1) v)).
  { rewrite C47_accepts, RC. split.
    - intros H i c k v Ec Et Ev. destruct (Forall2_nth_l _ _ _ _ _ Hy Ec) as [v' [Ev' Hv']]. rewrite Ev in Hv'. injection Hv' as <-. eauto.
    - intros H i k v Et Ev. destruct (Forall2_nth_r _ _ _ _ _ Hy Ev) as [c [Ec Hv]]. eauto. }
  destruct (dummy_code y (g_disc g)) as [c|e] eqn:Ed; cbn [rbind].
  - pose proof (row_length _ _ linreg_counts ltac:(lia) _ _ _ _ Hg Hd y c Ly Ed) as RL. rewrite RL. cbn [negb]. split.
    + exists y, c. split; [reflexivity|]. split; [exact Hy|]. split; [exact Ed|]. split; [|exact T2]. apply Z.eqb_eq in RL. cbn [length]. lia.
    + split; [|intros _; eauto]. intros _. split; [exact No|]. split; [exact T1|]. split; [exact Ek|]. apply RC'. eauto.
  - split.
    + destruct (C47_rejects _ _ _ Ed) as [i [v [k [_ [_ [C _]]]]]]. destruct v; cbn in C; try (intros ->; discriminate C).
      destruct C as [[-> _]|[-> _]]; discriminate.
    + split; [intros [r Hr]; discriminate|]. intros [_ [_ [_ H]]]. apply RC' in H. destruct H as [c Hc]. discriminate.
Qed.
(** OrdinaryLeastSquares.preprocess: exactly the declared categories, and no NaN. *)
Theorem C47_ols outs ins types g targets inputs :
  reg_init ols_count outs ins types = Ok g -> declared types ->
  match ols_preprocess g targets inputs with
  | Ok (x, c) => exists y, reads ins inputs y /\ dummy_code y (g_disc g) = Ok c /\
      Z.of_nat (length c) = g_p g - 1 /\ (forall t, targets = Some t -> t <> [] -> x = dget (g_out g) t)
  | Err e => e <> AssertionError
  end /\
  ((exists r, ols_preprocess g targets inputs = Ok r) <->
   ~ In (g_out g) (dkeys inputs) /\ target_ok (g_out g) targets /\ (forall c, In c (dkeys inputs) <-> In c ins) /\
   (forall c, In c ins -> dget c inputs <> Some NaN) /\
   forall i c k v, nth_error ins i = Some c -> nth_error types i = Some (Categories k) -> dget c inputs = Some v -> category k v).
Proof.
  intros Hg Hd. destruct (reg_init_spec _ _ _ _ _ Hg) as [o [pc [_ [Ho [Hi [_ [Hl _]]]]]]]. unfold ols_preprocess.
  destruct (dmem (g_out g) inputs) eqn:Eo.
  { split; [discriminate|]. split; [intros [r Hr]; discriminate|]. intros [H _]. exfalso. apply H. apply dmem_in. exact Eo. }
  assert (No : ~ In (g_out g) (dkeys inputs)) by (intros H; apply dmem_in in H; congruence).
  pose proof (target_of_spec (g_out g) targets) as T. destruct (target_of (g_out g) targets) as [x|e]; cbn [rbind].
  2: { destruct T as [-> T]. split; [discriminate|]. split; [intros [r Hr]; discriminate|]. tauto. }
  destruct T as [T1 [T2 _]]. destruct (same_keys (dkeys inputs) (g_in g)) eqn:Ek; cbn [negb].
  2: { split; [discriminate|]. split; [intros [r Hr]; discriminate|]. intros [_ [_ [H _]]]. rewrite <- Hi in H. rewrite <- same_keys_spec in H. congruence. }
  rewrite same_keys_spec in Ek. rewrite Hi in Ek |- *.
  destruct (reads_get ins inputs) as [y Hy]; [intros c; apply Ek|].
  rewrite (reads_rsequence _ ins inputs y) by (first [exact Hy|intros c v ->; reflexivity]). cbn [rbind].
  assert (Ly : length y = length ins) by (symmetry; apply (Forall2_len _ _ _ Hy)).
  assert (NN : existsb eisnan y = false <-> forall c, In c ins -> dget c inputs <> Some NaN).
  { rewrite <- Bool.not_true_iff_false, existsb_exists. split.
    - intros H c Hc Ev. apply H. apply In_nth_error in Hc. destruct Hc as [i Hc]. destruct (Forall2_nth_l _ _ _ _ _ Hy Hc) as [v [Ev' Hv]].
      exists NaN. split; [|reflexivity]. apply nth_error_In with (n := i). congruence.
    - intros H [v [Hv Nv]]. destruct v; try discriminate. apply In_nth_error in Hv. destruct Hv as [i Hv].
      destruct (Forall2_nth_r _ _ _ _ _ Hy Hv) as [c [Ec Hc]]. exact (H c (nth_error_In _ _ Ec) Hc). }
  destruct (existsb eisnan y) eqn:En.
  { split; [discriminate|]. split; [intros [r Hr]; discriminate|]. intros [_ [_ [_ [H _]]]]. apply NN in H. discriminate. }
  pose proof (proj1 NN eq_refl) as NN'. clear NN.
  pose proof (row_codable _ _ ols_counts ltac:(lia) _ _ _ _ Hg Hd y Ly) as RC.
  assert (RC' : (exists c, dummy_code y (g_disc g) = Ok c) <->
    (forall i c k v, nth_error ins i = Some c -> nth_error types i = Some (Categories k) -> dget c inputs = Some v -> category k v)).
  { rewrite C47_accepts, RC. split.
    - intros H i c k v Ec Et Ev. destruct (Forall2_nth_l _ _ _ _ _ Hy Ec) as [v' [Ev' Hv']]. rewrite Ev in Hv'. injection Hv' as <-.
      specialize (H i k v Et Ev'). rewrite Z.add_0_r in H. exact H.
    - intros H i k v Et Ev. destruct (Forall2_nth_r _ _ _ _ _ Hy Ev) as [c [Ec Hv]]. rewrite Z.add_0_r. eauto. }
  destruct (dummy_code y (g_disc g)) as [c|e] eqn:Ed; cbn [rbind].
  - pose proof (row_length _ _ ols_counts ltac:(lia) _ _ _ _ Hg Hd y c Ly Ed) as RL. rewrite RL. cbn [negb]. split.
    + exists y. split; [exact Hy|]. split; [exact Ed|]. split; [|exact T2]. apply Z.eqb_eq in RL. exact RL.
    + split; [|intros _; eauto]. intros _. split; [exact No|]. split; [exact T1|]. split; [exact Ek|]. split; [exact NN'|]. apply RC'. eauto.
  - split.
    + destruct (C47_rejects _ _ _ Ed) as [i [v [k [_ [_ [C _]]]]]]. destruct v; cbn in C; try (intros ->; discriminate C).
      destruct C as [[-> _]|[-> _]]; discriminate.
    + split; [intros [r Hr]; discriminate|]. intros [_ [_ [_ [_ H]]]]. apply RC' in H. destruct H as [c Hc]. discriminate.
Qed.
(** Different inputs give different covariates. *)
Theorem C47_linreg_injective outs ins types g targets targets' inputs inputs' x x' row :
  reg_init linreg_count outs ins types = Ok g -> declared types ->
  linreg_preprocess g targets inputs = Ok (x, row) -> linreg_preprocess g targets' inputs' = Ok (x', row) ->
  forall c, In c ins -> dget c inputs = dget c inputs'.
Proof.
  intros Hg Hd E E' c Hc. pose proof (proj1 (C47_linreg outs ins types g targets inputs Hg Hd)) as S. rewrite E in S.
  pose proof (proj1 (C47_linreg outs ins types g targets' inputs' Hg Hd)) as S'. rewrite E' in S'.
  destruct S as [y [cd [-> [R [D _]]]]]. destruct S' as [y' [cd' [Eq [R' [D' _]]]]]. injection Eq as <-.
  assert (y = y') as <-. { apply (C47_injective y y' (g_disc g) cd); [|exact D|exact D']. rewrite <- (Forall2_len _ _ _ R), <- (Forall2_len _ _ _ R'). reflexivity. }
  apply In_nth_error in Hc. destruct Hc as [i Hi]. destruct (Forall2_nth_l _ _ _ _ _ R Hi) as [v [Ev Hv]]. destruct (Forall2_nth_l _ _ _ _ _ R' Hi) as [v' [Ev' Hv']]. congruence.
Qed.

(** Findings.  A nominal input declared without its number of categories makes the
    constructor of LinearRegression fail with an unbound variable. *)
Theorem C47_untyped_refuted : exists types, length types = 1%nat /\ reg_init linreg_count [0] [1] types = Err UnboundLocalError.
Proof. exists [Neither]. split; reflexivity. Qed.
(** The table of the places of numerical inputs in the code is wrong as soon as the
    identifiers of the inputs are not their indices: input 6, the second one, is the fifth
    entry of the code, after the bias and the three entries of input 5. *)
Definition reg_56 : reg := Reg 0 [5; 6] 5 [(0, 4)].
Lemma as_code_cat d i k z : dget i d = Some k -> 0 <= z < k -> as_code d i (Fin (IZR z)) = Ok (one_hot k z).
Proof.
  intros E H. pose proof (as_code_spec d i (Fin (IZR z))) as S. rewrite E in S. destruct (as_code d i (Fin (IZR z))) as [c|e].
  - destruct S as [z' [Ez [_ ->]]]. injection Ez as Ez. apply eq_IZR in Ez. subst z'. reflexivity.
  - exfalso. apply (complaint_bad _ _ _ S). exists z. auto.
Qed.
Lemma reg_56_row r : linreg_preprocess reg_56 None [(5, Fin 1); (6, Fin r)] = Ok (None, [Fin 1; Fin 0; Fin 1; Fin 0; Fin r]).
Proof.
  change (rbind (dummy_code [Fin 1; Fin r] [(0, 4)]) (fun y => if negb (Z.of_nat (length y) =? 4) then Err AssertionError else Ok (@None ext, Fin 1 :: y))
          = Ok (None, [Fin 1; Fin 0; Fin 1; Fin 0; Fin r])).
  unfold dummy_code. cbn [codes]. rewrite (as_code_cat [(0, 4)] 0 4 1 eq_refl) by lia. reflexivity.
Qed.
Theorem C47_lookup_refuted : exists g y c, reg_init linreg_count [0] [5; 6] [Categories 3; Numeric] = Ok g /\
  linreg_preprocess g None [(5, Fin 1); (6, Fin 7)] = Ok (None, c) /\
  input_to_code_index g = [(1%nat, 2)] /\ nth_error c 2 = Some y /\ nth_error c 4 = Some (Fin 7) /\ y <> Fin 7.
Proof.
  exists reg_56, (Fin 1), [Fin 1; Fin 0; Fin 1; Fin 0; Fin 7]. split; [reflexivity|]. split; [apply reg_56_row|]. split; [reflexivity|].
  split; [reflexivity|]. split; [reflexivity|]. intros E. injection E as E. lra.
Qed.

(** Even if the identifiers of the inputs are their indices the table is off by one for
    every nominal input before the numerical one, since such an input is counted both with
    its entries and as an entry of its own. *)
Definition nominals (types : list stype) : nat := length (filter (fun t => match t with Categories _ => true | _ => false end) types).

Lemma nth_error_concat {A} (bs : list (list A)) : forall i b v, nth_error bs i = Some (v :: b) ->
  nth_error (concat bs) (list_sum (map (@length A) (firstn i bs))) = Some v.
Proof.
  induction bs as [|c bs IH]; intros [|i] b v H; cbn in H; try discriminate.
  - injection H as ->. reflexivity.
  - cbn [firstn map list_sum fold_right concat]. rewrite nth_error_app2 by (cbn; lia).
    replace (_ + _ - _)%nat with (list_sum (map (@length A) (firstn i bs))) by (unfold list_sum; lia). eauto.
Qed.
Lemma firstn_seq0 i n : (i <= n)%nat -> firstn i (seq 0 n) = seq 0 i.
Proof. intros H. replace n with (i + (n - i))%nat by lia. rewrite seq_app, firstn_app, seq_length, Nat.sub_diag, firstn_all2 by (rewrite seq_length; lia). apply app_nil_r. Qed.

Theorem C47_lookup_partial outs types g targets inputs x row :
  reg_init linreg_count outs (map Z.of_nat (seq 0 (length types))) types = Ok g -> declared types ->
  linreg_preprocess g targets inputs = Ok (x, row) ->
  map fst (input_to_code_index g) = filter (fun i => match nth_error types i with Some Numeric => true | _ => false end) (seq 0 (length types)) /\
  forall i off, In (i, off) (input_to_code_index g) ->
    exists place v, dget (Z.of_nat i) inputs = Some v /\ nth_error row place = Some v /\
      off = Z.of_nat (place + nominals (firstn i types)).
Proof.
  intros Hg Hd Hr. set (ins := map Z.of_nat (seq 0 (length types))) in *.
  destruct (reg_init_spec _ _ _ _ _ Hg) as [o [pc [_ [_ [Hi [_ [Hl [F [_ Hdisc]]]]]]]]].
  assert (DG : forall i, dget (Z.of_nat i) (g_disc g) = match nth_error types i with Some (Categories k) => Some (k + 1) | _ => None end).
  { exact (disc_get _ _ linreg_counts ltac:(lia) _ _ _ _ Hg Hd). }
  assert (Nn : forall i, nth_error types i <> Some Neither).
  { intros i E. destruct (Forall2_nth_l _ _ _ _ _ F E) as [q [_ Q]]. discriminate. }
  assert (Ni : forall i, (i < length types)%nat -> nth i ins 0 = Z.of_nat i).
  { intros i H. unfold ins. rewrite (nth_indep _ 0 (Z.of_nat 0)) by (rewrite map_length, seq_length; lia).
    rewrite map_nth, seq_nth by lia. reflexivity. }
  (* which inputs the table has *)
  assert (Av : forall i, (i < length types)%nat ->
     zmem (nth i (g_in g) 0) (map (fun ik => nth (Z.to_nat (fst ik)) (g_in g) 0) (g_disc g)) = dmem (Z.of_nat i) (g_disc g)).
  { intros i H. rewrite Hi, Ni by exact H.
    assert (Below : forall j k, In (j, k) (g_disc g) -> 0 <= j < Z.of_nat (length types)).
    { assert (Lp : length pc = length types) by (symmetry; exact (Forall2_len _ _ _ F)). rewrite <- Lp, Hdisc.
      clear. assert (H : forall cs b j k, In (j, k) (discretes_of b cs) -> b <= j < b + Z.of_nat (length cs)).
      { induction cs as [|[c|] cs IH]; intros b j k Hin; cbn [discretes_of] in Hin; [contradiction| |].
        - destruct (c =? 0); [|destruct Hin as [E|Hin]; [injection E as <- <-; cbn; lia|]]; apply IH in Hin; cbn [length]; lia.
        - apply IH in Hin; cbn [length]; lia. }
      intros j k Hin. apply H in Hin. rewrite map_length in Hin. lia. }
    destruct (dmem (Z.of_nat i) (g_disc g)) eqn:E.
    - apply zmem_in. apply dmem_in in E. unfold dkeys in E. apply in_map_iff in E. destruct E as ([j k] & E & Hin). cbn in E. subst j.
      apply in_map_iff. exists (Z.of_nat i, k). split; [|exact Hin]. cbn [fst]. rewrite Nat2Z.id, Ni by exact H. reflexivity.
    - apply zmem_false. intros X. apply in_map_iff in X. destruct X as ([j k] & X & Hin). cbn [fst] in X.
      pose proof (Below _ _ Hin) as B. rewrite Ni in X by lia. apply dmem_false in E. apply E. rewrite <- X, Z2Nat.id by lia.
      change j with (fst (j, k)). apply in_map. exact Hin. }
  assert (Lg : length (g_in g) = length types) by (rewrite Hi; unfold ins; rewrite map_length, seq_length; reflexivity).
  assert (Fl : filter (fun c => negb (zmem (nth c (g_in g) 0) (map (fun ik => nth (Z.to_nat (fst ik)) (g_in g) 0) (g_disc g)))) (seq 0 (length (g_in g)))
             = filter (fun i => match nth_error types i with Some Numeric => true | _ => false end) (seq 0 (length types))).
  { rewrite Lg. apply filter_ext_in. intros i Hin. apply in_seq in Hin. rewrite Av by lia. unfold dmem. rewrite DG.
    destruct (nth_error types i) as [[|k|]|] eqn:E; try reflexivity.
    - contradiction (Nn i E).
    - apply nth_error_None in E. lia. }
  split.
  { unfold input_to_code_index. cbv zeta. rewrite Fl, map_map. cbn [fst]. apply map_id. }
  intros i off Hin. unfold input_to_code_index in Hin. cbv zeta in Hin. rewrite Fl in Hin. apply in_map_iff in Hin.
  destruct Hin as (i' & E & Hin). injection E as -> <-. apply filter_In in Hin. destruct Hin as [Hin Ht]. apply in_seq in Hin.
  assert (Et : nth_error types i = Some Numeric) by (destruct (nth_error types i) as [[| |]|]; congruence). clear Ht.
  destruct (C47_linreg outs ins types g targets inputs Hg Hd) as [G _]. rewrite Hr in G.
  destruct G as (y & c & -> & Hy & Ed & _ & _).
  destruct (C47_blocks _ _ _ Ed) as (bs & -> & Lb & Hb).
  assert (Ly : length y = length types) by (rewrite <- (Forall2_len _ _ _ Hy); unfold ins; rewrite map_length, seq_length; reflexivity).
  destruct (nth_error bs i) as [b|] eqn:Eb.
  2:{ apply nth_error_None in Eb. lia. }
  destruct (Hb i b Eb) as (v & Ev & Cb). rewrite DG, Et in Cb. subst b.
  exists (S (list_sum (map (@length ext) (firstn i bs)))), v. split; [|split].
  - destruct (Forall2_nth_r _ _ _ _ _ Hy Ev) as [q [Eq Hq]]. unfold ins in Eq. rewrite nth_error_map, nth_error_seq0 in Eq by lia.
    cbn in Eq. injection Eq as <-. exact Hq.
  - cbn [nth_error]. apply (nth_error_concat bs i [] v Eb).
  - unfold code_offset. rewrite Hi. unfold ins. rewrite firstn_map, firstn_seq0 by lia.
    assert (Hn : forall n, (n <= length types)%nat ->
      zsum (map (fun b => match dget b (g_disc g) with Some k => k - 1 | None => 0 end)
                (filter (fun c => dmem c (g_disc g)) (map Z.of_nat (seq 0 n)))) + Z.of_nat n
      = Z.of_nat (list_sum (map (@length ext) (firstn n bs)) + nominals (firstn n types))).
    { induction n as [|n IH]; intros Hn; [reflexivity|]. specialize (IH ltac:(lia)).
      rewrite seq_S, map_app, filter_app, map_app. cbn [plus map].
      destruct (nth_error bs n) as [b|] eqn:Ebn; [|apply nth_error_None in Ebn; lia].
      destruct (nth_error types n) as [t|] eqn:Etn; [|apply nth_error_None in Etn; lia].
      assert (FS : forall {A} (l : list A) a, nth_error l n = Some a -> firstn (S n) l = firstn n l ++ [a]).
      { clear. intros A. induction n as [|n IH]; intros [|z l] a H; try discriminate.
        - cbn in *. congruence.
        - change (z :: firstn (S n) l = z :: (firstn n l ++ [a])). f_equal. apply IH. exact H. }
      rewrite (FS _ bs b Ebn), (FS _ types t Etn), map_app. unfold nominals in *. rewrite filter_app, app_length.
      assert (LS : forall a b, list_sum (a ++ b) = (list_sum a + list_sum b)%nat) by apply list_sum_app. rewrite LS.
      assert (ZS : forall a b, zsum (a ++ b) = zsum a + zsum b) by (clear; unfold zsum; induction a as [|z a IH]; intros b; cbn [app fold_right]; [reflexivity|rewrite IH; lia]).
      rewrite ZS.
      match type of IH with ?p + _ = Z.of_nat (?q + ?r) => set (P := p) in *; set (Q := q) in *; set (N := r) in *; clearbody P Q N end.
      destruct (Hb n b Ebn) as (u & _ & Cb). rewrite DG, Etn in Cb. cbn [filter]. unfold dmem. rewrite DG, Etn.
      destruct t as [|k|].
      - subst b. cbn [filter map zsum fold_right list_sum length]. lia.
      - destruct Cb as (z & _ & ->). cbn [map zsum fold_right list_sum filter length]. rewrite one_hot_length, ?DG, ?Etn.
        specialize (Hd k (nth_error_In _ _ Etn)). lia.
      - contradiction (Nn n Etn). }
    specialize (Hn i ltac:(lia)). lia.
Qed.
Print Assumptions C47_lookup_partial.
Definition reg_01 : reg := Reg 9 [0; 1] 5 [(0, 4)].
Lemma reg_01_row : linreg_preprocess reg_01 None [(0, Fin 1); (1, Fin 7)] = Ok (None, [Fin 1; Fin 0; Fin 1; Fin 0; Fin 7]).
Proof.
  change (rbind (dummy_code [Fin 1; Fin 7] [(0, 4)]) (fun y => if negb (Z.of_nat (length y) =? 4) then Err AssertionError else Ok (@None ext, Fin 1 :: y))
          = Ok (None, [Fin 1; Fin 0; Fin 1; Fin 0; Fin 7])).
  unfold dummy_code. cbn [codes]. rewrite (as_code_cat [(0, 4)] 0 4 1 eq_refl) by lia. reflexivity.
Qed.
Theorem C47_lookup_indices_refuted : exists g row, reg_init linreg_count [9] [0; 1] [Categories 3; Numeric] = Ok g /\
  linreg_preprocess g None [(0, Fin 1); (1, Fin 7)] = Ok (None, row) /\
  input_to_code_index g = [(1%nat, 5)] /\ nth_error row 4 = Some (Fin 7) /\ nth_error row 5 = None.
Proof.
  exists reg_01, [Fin 1; Fin 0; Fin 1; Fin 0; Fin 7]. split; [reflexivity|]. split; [apply reg_01_row|].
  split; [reflexivity|]. split; reflexivity.
Qed.
Print Assumptions C47_lookup_indices_refuted.
(** Concrete case: the numerical input comes first and is looked up correctly. *)
Example C47_lookup_ex : exists g row, reg_init linreg_count [9] (map Z.of_nat (seq 0 2)) [Numeric; Categories 1] = Ok g /\ declared [Numeric; Categories 1] /\
  linreg_preprocess g None [(0, Fin 7); (1, Fin 1)] = Ok (None, row) /\ input_to_code_index g = [(0%nat, 1)] /\ nth_error row 1 = Some (Fin 7).
Proof.
  exists (Reg 9 [0; 1] 3 [(1, 2)]), [Fin 1; Fin 7; Fin 0]. split; [reflexivity|]. split; [|split; [|split; reflexivity]].
  - intros k [H|[H|[]]]; [discriminate|injection H as <-; lia].
  - change (rbind (dummy_code [Fin 7; Fin 1] [(1, 2)]) (fun y => if negb (Z.of_nat (length y) =? 2) then Err AssertionError else Ok (@None ext, Fin 1 :: y))
          = Ok (None, [Fin 1; Fin 7; Fin 0])).
    unfold dummy_code. cbn [codes rbind]. rewrite (as_code_cat [(1, 2)] (0 + 1) 2 1 eq_refl) by lia. reflexivity.
Qed.

(* ------------------------------------------------------------------ *)
(** ** Examples *)

Example C47_accepts_ex : codable [(1, 3)] [Fin (1 / 2); Fin 2] /\ ~ codable [(1, 3)] [Fin 2; Fin 3] /\ ~ codable [(1, 3)] [Fin 2; NaN].
Proof.
  split; [|split].
  - intros [|[|i]] v k; cbn; try discriminate; [|destruct i; discriminate]. intros E F. injection E as <-. injection F as <-. exists 2. split; [reflexivity|lia].
  - intros H. destruct (H 1%nat (Fin 3) 3 eq_refl eq_refl) as [z [E Hz]]. injection E as E. apply (eq_IZR 3) in E. lia.
  - intros H. destruct (H 1%nat NaN 3 eq_refl eq_refl) as [z [E _]]. discriminate.
Qed.
Example C47_code_ex : dummy_code [Fin (1 / 2); Fin 1] [(1, 3)] = Ok [Fin (1 / 2); Fin 0; Fin 1] /\
  dummy_code [Fin (1 / 2); Fin 2] [(1, 3)] = Ok [Fin (1 / 2); Fin 0; Fin 0] /\ width [(1, 3)] 2 = 3%nat.
Proof.
  split; [|split; [|reflexivity]]; unfold dummy_code; cbn [codes rbind];
    rewrite (as_code_cat [(1, 3)] (0 + 1) 3 _ eq_refl) by lia; reflexivity.
Qed.
Example C47_rejects_ex : dummy_code [NaN; PInf] [(1, 3)] = Err OverflowError.
Proof. reflexivity. Qed.
Example C47_linreg_ex : reg_init linreg_count [0] [5; 6] [Categories 3; Numeric] = Ok reg_56 /\ declared [Categories 3; Numeric] /\
  linreg_preprocess reg_56 None [(5, Fin 1); (6, Fin 7)] = Ok (None, [Fin 1; Fin 0; Fin 1; Fin 0; Fin 7]).
Proof.
  split; [reflexivity|]. split; [|apply reg_56_row]. intros k [H|[H|[]]]; [injection H as <-; lia|discriminate].
Qed.
Example C47_ols_ex : exists g, reg_init ols_count [0] [5; 6] [Categories 3; Numeric] = Ok g /\
  ols_preprocess g None [(5, Fin 1); (6, Fin 7)] = Ok (None, [Fin 0; Fin 1; Fin 7]) /\ ols_preprocess g None [(5, Fin 1); (6, NaN)] = Err ValueError.
Proof.
  exists (Reg 0 [5; 6] 4 [(0, 3)]). split; [reflexivity|]. split; [|reflexivity].
  change (rbind (dummy_code [Fin 1; Fin 7] [(0, 3)]) (fun y => if negb (Z.of_nat (length y) =? 3) then Err AssertionError else Ok (@None ext, y))
          = Ok (None, [Fin 0; Fin 1; Fin 7])).
  unfold dummy_code. cbn [codes]. rewrite (as_code_cat [(0, 3)] 0 3 1 eq_refl) by lia. reflexivity.
Qed.
Print Assumptions C47_accepts.
Print Assumptions C47_injective.
Print Assumptions C47_linreg.
Print Assumptions C47_ols.
