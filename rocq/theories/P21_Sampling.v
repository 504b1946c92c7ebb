(** C46: what the samplers of utils/sampling.py return.

    Every theorem quantifies over the functions called back (which may raise), the domain,
    the parameters and the streams of random numbers. *)
From Verif Require Import Sampling PrimFacts.
From Coq Require Import List ZArith Reals Bool Lia Lra.
Import ListNotations.
Local Open Scope Z_scope.

(** Specification.  A point of a domain, a point of its interior, a density that is not
    zero (a log density other than minus infinity and NaN). *)
Definition in_dom (D : dom) (x : R) : Prop :=
  (forall l, fst D = Some l -> (l <= x)%R) /\ (forall h, snd D = Some h -> (x <= h)%R).
Definition inside (D : dom) (x : R) : Prop :=
  (forall l, fst D = Some l -> (l < x)%R) /\ (forall h, snd D = Some h -> (x < h)%R).
Definition positive_at (f : R -> res ext) (x : R) : Prop :=
  f x = Ok PInf \/ exists v, f x = Ok (Fin v).
(** What is returned, as a list. *)
Definition sampled (r : result) : list R := match r with One x => [x] | Many l => l end.
(** The iterations 1 .. T after which a sample is kept. *)
Definition kept (keep : Z -> bool) (T : nat) : list Z := filter keep (map Z.of_nat (seq 1 T)).

Lemma kept_snoc : forall keep T,
  kept keep (S T) = kept keep T ++ (if keep (Z.of_nat (S T)) then [Z.of_nat (S T)] else []).
Proof.
  intros keep T. unfold kept. rewrite seq_S, map_app, filter_app. cbn [map filter].
  destruct (keep _); reflexivity.
Qed.
Lemma kept_in : forall keep T i, In i (kept keep T) -> 1 <= i <= Z.of_nat T /\ keep i = true.
Proof.
  intros keep T i H. unfold kept in H. apply filter_In in H. destruct H as [H K]. split; auto.
  apply in_map_iff in H. destruct H as (k & <- & H). apply in_seq in H. lia.
Qed.

Lemma sabove_spec : forall D x, sabove D x && sbelow D x = true <-> inside D x.
Proof.
  intros [lo hi] x. unfold sabove, sbelow, inside; cbn [fst snd]. rewrite andb_true_iff.
  split.
  - intros [A B]. split; intros v E; subst; apply Rltb_true; auto.
  - intros [A B]. split; [destruct lo as [l|]|destruct hi as [h|]]; auto; apply Rltb_true; auto.
Qed.
Lemma above_spec : forall D x, above D x && below D x = true <-> in_dom D x.
Proof.
  intros [lo hi] x. unfold above, below, in_dom; cbn [fst snd]. rewrite andb_true_iff.
  split.
  - intros [A B]. split; intros v E; subst; apply Rleb_true; auto.
  - intros [A B]. split; [destruct lo as [l|]|destruct hi as [h|]]; auto; apply Rleb_true; auto.
Qed.
Lemma inside_in_dom : forall D x, inside D x -> in_dom D x.
Proof. intros D x [A B]. split; intros v E; [specialize (A v E)|specialize (B v E)]; lra. Qed.

Lemma as_result_sampled : forall num l r, as_result num l = Ok r ->
  (num <> 1 \/ length l = 1%nat) -> sampled r = l.
Proof.
  intros num l r H L. unfold as_result in H. destruct (Z.eqb_spec num 1) as [->|N].
  - destruct L as [L|L]; [congruence|]. destruct l as [|x [|y l]]; cbn in L; try lia.
    injection H as <-. reflexivity.
  - injection H as <-. reflexivity.
Qed.

(* ------------------------------------------------------------------ *)
(** ** mh_sample *)

(** One step of the chain, spelled out: a proposal strictly inside of the domain, which is
    moved to exactly when the logarithm of the uniform draw is below the difference of the
    log densities. *)
Definition mh_moves (f : R -> res ext) (D : dom) (nrm : nat -> R) (rand : R) (st st' : R * ext) : Prop :=
  exists x' logp', jump D nrm (fst st) = Ok x' /\ inside D x' /\ f x' = Ok logp' /\ (0 < rand)%R /\
    ((eltb (Fin (ln rand)) (esub logp' (snd st)) = true /\ st' = (x', logp')) \/
     (eltb (Fin (ln rand)) (esub logp' (snd st)) = false /\ st' = st)).

Lemma plog_inv : forall r v, plog r = Ok v -> (0 < r)%R /\ v = ln r.
Proof.
  intros r v H. unfold plog in H. destruct (Rltb 0 r) eqn:E; [|discriminate].
  apply Rltb_true in E. injection H as <-. auto.
Qed.

Lemma mh_step_moves : forall f D nrm rand i st st',
  mh_step f D nrm rand i st = Ok st' -> mh_moves f D (nrm i) (rand i) st st'.
Proof.
  intros f D nrm rand i [x logp] st' H. unfold mh_step in H.
  destruct (jump D (nrm i) x) as [x'|] eqn:J; cbn [rbind] in H; [|discriminate].
  destruct (sabove D x' && sbelow D x') eqn:S; cbn [negb] in H; [|discriminate].
  destruct (f x') as [logp'|] eqn:F; cbn [rbind] in H; [|discriminate].
  destruct (plog (rand i)) as [lu|] eqn:L; cbn [rbind] in H; [|discriminate].
  apply plog_inv in L. destruct L as [L ->].
  exists x', logp'. cbn [fst snd]. split; [exact J|]. split; [apply sabove_spec; exact S|].
  split; [exact F|]. split; [exact L|].
  destruct (eltb (Fin (ln (rand i))) (esub logp' logp)); injection H as <-; auto.
Qed.

(** A chain of [T] steps from [st0]. *)
Definition mh_chain (f : R -> res ext) (D : dom) (nrm : Z -> nat -> R) (rand : Z -> R)
    (st0 : R * ext) (T : nat) (chain : Z -> R * ext) : Prop :=
  chain 0 = st0 /\
  forall i, 1 <= i <= Z.of_nat T -> mh_moves f D (nrm i) (rand i) (chain (i - 1)) (chain i).

Definition mh_keep (burn lag i : Z) : bool := (burn <? i) && (i mod lag =? 0).

Lemma mh_loop_spec : forall f D nrm rand num burn lag fuel T st0 chain l,
  mh_chain f D nrm rand st0 T chain ->
  mh_loop f D nrm rand num burn lag fuel (Z.of_nat T + 1) (chain (Z.of_nat T))
    (map (fun i => fst (chain i)) (kept (mh_keep burn lag) T)) = Some (Ok l) ->
  (length (kept (mh_keep burn lag) T) <= Z.to_nat num)%nat ->
  exists T' chain', mh_chain f D nrm rand st0 T' chain' /\
    l = map (fun i => fst (chain' i)) (kept (mh_keep burn lag) T') /\
    length l = Z.to_nat num.
Proof.
  intros f D nrm rand num burn lag. induction fuel as [|fuel IH]; intros T st0 chain l C H Le.
  - cbn [mh_loop] in H. destruct (_ <? num) eqn:E; [discriminate|]. apply Z.ltb_ge in E.
    injection H as <-. exists T, chain. split; [exact C|]. split; [reflexivity|].
    rewrite map_length in *. lia.
  - cbn [mh_loop] in H. destruct (_ <? num) eqn:E.
    + apply Z.ltb_lt in E. rewrite map_length in E.
      destruct (mh_step f D nrm rand (Z.of_nat T + 1) (chain (Z.of_nat T))) as [st'|e] eqn:Ms; [|discriminate].
      apply mh_step_moves in Ms.
      set (chain2 := fun i => if i =? Z.of_nat T + 1 then st' else chain i).
      assert (Old : forall i, i <= Z.of_nat T -> chain2 i = chain i).
      { intros i Hi. unfold chain2. destruct (Z.eqb_spec i (Z.of_nat T + 1)); [lia|reflexivity]. }
      assert (New : chain2 (Z.of_nat (S T)) = st').
      { unfold chain2. destruct (Z.eqb_spec (Z.of_nat (S T)) (Z.of_nat T + 1)); [reflexivity|lia]. }
      assert (C2 : mh_chain f D nrm rand st0 (S T) chain2).
      { destruct C as [C0 C1]. split; [rewrite Old by lia; exact C0|].
        intros i Hi. destruct (Z.eq_dec i (Z.of_nat T + 1)) as [->|Ne].
        - replace (Z.of_nat T + 1 - 1) with (Z.of_nat T) by lia. rewrite Old by lia.
          replace (chain2 (Z.of_nat T + 1)) with st'; [exact Ms|].
          replace (Z.of_nat T + 1) with (Z.of_nat (S T)) by lia. auto.
        - rewrite !Old by lia. apply C1. lia. }
      assert (Ks : map (fun i => fst (chain2 i)) (kept (mh_keep burn lag) (S T)) =
                   map (fun i => fst (chain i)) (kept (mh_keep burn lag) T) ++
                   (if mh_keep burn lag (Z.of_nat (S T)) then [fst st'] else [])).
      { rewrite kept_snoc, map_app. f_equal.
        - apply map_ext_in. intros i Hi. apply kept_in in Hi. rewrite Old by lia. reflexivity.
        - destruct (mh_keep burn lag (Z.of_nat (S T))); [|reflexivity]. cbn [map]. rewrite New. reflexivity. }
      assert (Ln : (length (kept (mh_keep burn lag) (S T)) <= Z.to_nat num)%nat).
      { rewrite kept_snoc, app_length. destruct (mh_keep burn lag (Z.of_nat (S T))); cbn [length]; lia. }
      replace (Z.of_nat T + 1) with (Z.of_nat (S T)) in H by lia.
      change (mh_keep burn lag (Z.of_nat (S T))) with ((burn <? Z.of_nat (S T)) && (Z.of_nat (S T) mod lag =? 0)) in Ks.
      apply (IH (S T) st0 chain2 l C2); [|exact Ln]. rewrite New.
      destruct (burn <? Z.of_nat (S T)) eqn:B.
      * destruct (lag =? 0); [discriminate|]. cbn [andb] in Ks.
        destruct (Z.of_nat (S T) mod lag =? 0); rewrite Ks; [exact H|].
        rewrite app_nil_r. exact H.
      * cbn [andb] in Ks. rewrite Ks, app_nil_r. exact H.
    + apply Z.ltb_ge in E. injection H as <-. exists T, chain. split; [exact C|]. split; [reflexivity|].
      rewrite map_length in *. lia.
Qed.

(** mh_sample runs a Metropolis chain from the given point, every proposal of which lies
    strictly inside of the domain, and returns the states after those of the iterations
    1, 2, ... which come after the [burn]-th and are multiples of [lag]; as many as asked
    for. *)
Theorem C46_mh_chain : forall f D nrm rand num burn lag fuel x r,
  mh_sample f D nrm rand num burn lag fuel x = Some (Ok r) ->
  in_dom D x /\
  exists logp T chain, f x = Ok logp /\ mh_chain f D nrm rand (x, logp) T chain /\
    sampled r = map (fun i => fst (chain i)) (kept (fun i => (burn <? i) && (i mod lag =? 0)) T) /\
    length (sampled r) = Z.to_nat num.
Proof.
  intros f D nrm rand num burn lag fuel x r H. unfold mh_sample in H.
  destruct (above D x && below D x) eqn:A; cbn [negb] in H; [|discriminate].
  apply above_spec in A. split; [exact A|].
  destruct (f x) as [logp|] eqn:F; [|discriminate].
  destruct (mh_loop f D nrm rand num burn lag fuel 1 (x, logp) []) as [[l|e]|] eqn:L; try discriminate.
  cbn [rbind] in H.
  assert (C : mh_chain f D nrm rand (x, logp) 0 (fun _ => (x, logp))).
  { split; [reflexivity|]. intros i Hi. lia. }
  destruct (mh_loop_spec f D nrm rand num burn lag fuel 0 (x, logp) _ l C L) as (T & ch & C' & E & Ln); [cbn; lia|].
  exists logp, T, ch. split; [reflexivity|]. split; [exact C'|].
  injection H as H.
  assert (Sa : sampled r = l).
  { apply (as_result_sampled num l r H). destruct (Z.eq_dec num 1) as [->|]; auto. }
  rewrite Sa. split; [exact E|exact Ln].
Qed.
Print Assumptions C46_mh_chain.

Lemma accepted_positive : forall lu lp' lp,
  eltb (Fin lu) (esub lp' lp) = true -> lp' = PInf \/ exists v, lp' = Fin v.
Proof. intros lu lp' lp H. destruct lp', lp; cbn in H; try discriminate; eauto. Qed.

Lemma chain_points : forall f D nrm rand x logp T chain,
  mh_chain f D nrm rand (x, logp) T chain ->
  forall i, 0 <= i <= Z.of_nat T ->
    chain i = (x, logp) \/ (inside D (fst (chain i)) /\ positive_at f (fst (chain i))).
Proof.
  intros f D nrm rand x logp T chain [C0 C] i Hi.
  assert (K : forall k, (k <= T)%nat -> chain (Z.of_nat k) = (x, logp) \/
     (inside D (fst (chain (Z.of_nat k))) /\ positive_at f (fst (chain (Z.of_nat k))))).
  { induction k as [|k IH]; intros Hk; [left; exact C0|].
    destruct (C (Z.of_nat (S k)) ltac:(lia)) as (x' & lp' & J & I & F & _ & [[A E]|[A E]]).
    - right. rewrite E. cbn [fst]. split; [exact I|]. unfold positive_at. rewrite F.
      destruct (accepted_positive _ _ _ A) as [->|[v ->]]; eauto.
    - rewrite E. replace (Z.of_nat (S k) - 1) with (Z.of_nat k) by lia. apply IH. lia. }
  specialize (K (Z.to_nat i)). rewrite Z2Nat.id in K by lia. apply K. lia.
Qed.

(** Every point returned is the start, or lies strictly inside of the domain and has
    positive density; there are as many as asked for. *)
Theorem C46_mh : forall f D nrm rand num burn lag fuel x r,
  mh_sample f D nrm rand num burn lag fuel x = Some (Ok r) ->
  length (sampled r) = Z.to_nat num /\
  forall y, In y (sampled r) -> y = x \/ (inside D y /\ positive_at f y).
Proof.
  intros f D nrm rand num burn lag fuel x r H.
  destruct (C46_mh_chain _ _ _ _ _ _ _ _ _ _ H) as (A & logp & T & ch & F & C & E & Ln).
  split; [exact Ln|]. intros y Hy. rewrite E in Hy. apply in_map_iff in Hy. destruct Hy as (i & <- & Hi).
  apply kept_in in Hi. destruct (chain_points _ _ _ _ _ _ _ _ C i) as [-> | P]; auto; lia.
Qed.
Print Assumptions C46_mh.

(** In particular all of them are in the closed domain, and a start of positive density
    strictly inside of the domain gives only such points. *)
Theorem C46_mh_domain : forall f D nrm rand num burn lag fuel x r,
  mh_sample f D nrm rand num burn lag fuel x = Some (Ok r) ->
  Forall (in_dom D) (sampled r) /\
  (inside D x -> Forall (inside D) (sampled r)) /\
  (positive_at f x -> Forall (positive_at f) (sampled r)).
Proof.
  intros f D nrm rand num burn lag fuel x r H.
  destruct (C46_mh_chain _ _ _ _ _ _ _ _ _ _ H) as (A & _).
  destruct (C46_mh _ _ _ _ _ _ _ _ _ _ H) as [_ P].
  split; [|split]; [|intros I|intros I]; apply Forall_forall; intros y Hy;
    destruct (P y Hy) as [->|[In Po]]; auto using inside_in_dom.
Qed.
Print Assumptions C46_mh_domain.

(** It ends, returning or raising, within [burn + num * lag] iterations when [lag] is
    positive. *)
Lemma mh_loop_returns : forall f D nrm rand num burn lag,
  0 < lag ->
  forall fuel i st samples, 1 <= i ->
    (num - Z.of_nat (length samples)) * lag - (if burn <? i then (i - 1) mod lag else 0) +
      (if burn <? i then 0 else burn - i + 1) <= Z.of_nat fuel ->
    exists l, mh_loop f D nrm rand num burn lag fuel i st samples = Some l.
Proof.
  intros f D nrm rand num burn lag Hl. induction fuel as [|fuel IH]; intros i st samples Hi Hf.
  - cbn [mh_loop]. destruct (_ <? num) eqn:E; [|eauto]. apply Z.ltb_lt in E. exfalso.
    destruct (burn <? i) eqn:B.
    + pose proof (Z.mod_pos_bound (i - 1) lag Hl). nia.
    + apply Z.ltb_ge in B. nia.
  - cbn [mh_loop]. destruct (_ <? num) eqn:E; [|eauto]. apply Z.ltb_lt in E.
    destruct (mh_step f D nrm rand i st) as [st'|]; [|eauto].
    rewrite Nat2Z.inj_succ in Hf. destruct (burn <? i) eqn:B.
    + apply Z.ltb_lt in B. destruct (Z.eqb_spec lag 0); [lia|].
      assert (B' : burn <? i + 1 = true) by (apply Z.ltb_lt; lia).
      destruct (Z.eqb_spec (i mod lag) 0) as [M|M].
      * apply IH; [lia|]. rewrite B', app_length. cbn [length].
        replace (i + 1 - 1) with i by lia. rewrite M.
        assert (Mi : (i - 1) mod lag = lag - 1).
        { apply Z.mod_divide in M; [|lia]. destruct M as [q ->].
          symmetry. apply (Z.mod_unique_pos _ _ (q - 1)); lia. }
        rewrite Mi in Hf. nia.
      * apply IH; [lia|]. rewrite B'.
        replace (i + 1 - 1) with i by lia.
        assert (Mi : i mod lag = (i - 1) mod lag + 1).
        { pose proof (Z.mod_pos_bound i lag Hl). symmetry.
          assert (X : (i - 1) mod lag = i mod lag - 1).
          { symmetry. apply (Z.mod_unique_pos _ _ (i / lag)); [lia|].
            pose proof (Z.div_mod i lag ltac:(lia)). lia. }
          lia. }
        nia.
    + apply Z.ltb_ge in B. apply IH; [lia|].
      destruct (burn <? i + 1) eqn:B'.
      * apply Z.ltb_lt in B'. pose proof (Z.mod_pos_bound (i + 1 - 1) lag Hl). lia.
      * apply Z.ltb_ge in B'. lia.
Qed.

Theorem C46_mh_ends : forall f D nrm rand num burn lag fuel x,
  0 < lag -> Z.max burn 0 + num * lag <= Z.of_nat fuel ->
  mh_sample f D nrm rand num burn lag fuel x <> None.
Proof.
  intros f D nrm rand num burn lag fuel x Hl Hf. unfold mh_sample.
  destruct (negb _); [discriminate|]. destruct (f x) as [logp|]; [|discriminate].
  destruct (mh_loop_returns f D nrm rand num burn lag Hl fuel 1 (x, logp) []) as [l E]; [lia| |].
  { cbn [length]. replace (1 - 1) with 0 by lia. rewrite Z.mod_0_l by lia.
    destruct (burn <? 1) eqn:B; [apply Z.ltb_lt in B|apply Z.ltb_ge in B]; lia. }
  rewrite E. discriminate.
Qed.
Print Assumptions C46_mh_ends.

(** Concrete case: a fair-looking target on the whole line, proposals 5, 6, 7, ..., every
    one accepted. *)
Definition flat : R -> res ext := fun _ => Ok (Fin 0).
Definition ln_half : (ln (1/2) < 0)%R.
Proof. rewrite <- ln_1. apply ln_increasing; lra. Qed.
Lemma flat_step : forall i x, mh_step flat (None, None) (fun i _ => IZR i) (fun _ => (1/2)%R) i (x, Fin 0) = Ok (IZR i, Fin 0).
Proof.
  intros i x. unfold mh_step, jump. cbn [first_inside sabove sbelow fst snd andb rbind negb flat].
  unfold plog. replace (Rltb 0 (1 / 2)) with true by (symmetry; apply Rltb_true; lra). cbn [rbind esub eltb eadd eopp].
  match goal with |- context [Rltb ?a ?b] => replace (Rltb a b) with true end; [reflexivity|].
  symmetry. apply Rltb_true. pose proof ln_half. lra.
Qed.
Example C46_mh_ex : mh_sample flat (None, None) (fun i _ => IZR i) (fun _ => (1/2)%R) 2 3 2 6 0 = Some (Ok (Many [4; 6]%R)).
Proof.
  unfold mh_sample. cbn [above below fst snd andb negb flat].
  change (mh_loop flat (None, None) (fun i _ => IZR i) (fun _ => (1 / 2)%R) 2 3 2 6 1 (0%R, Fin 0) [])
    with (mh_loop flat (None, None) (fun i _ => IZR i) (fun _ => (1 / 2)%R) 2 3 2 6 1 (0%R, Fin 0) (@nil R)).
  do 6 (cbn [mh_loop length app Z.of_nat Z.ltb Z.compare Pos.compare Pos.compare_cont]; rewrite flat_step;
        cbn [Z.ltb Z.compare Pos.compare Pos.compare_cont Z.eqb Pos.eqb Z.add Pos.add Pos.succ Z.modulo Z.div_eucl Z.pos_div_eucl Z.leb Z.sub Z.opp Z.mul Z.pos_sub snd fst]).
  reflexivity.
Qed.

(** The full claim -- every returned point has positive density -- is false: a start of zero
    density is returned when nothing better is proposed. *)
Theorem C46_mh_refuted : exists f D nrm rand x r,
  mh_sample f D nrm rand 1 0 1 1 x = Some (Ok r) /\ in_dom D x /\ sampled r = [x] /\ f x = Ok NInf.
Proof.
  exists (fun _ => Ok NInf), (None, None), (fun _ _ => 1%R), (fun _ => (1/2)%R), 0%R, (One 0%R).
  split; [|split; [split; discriminate|auto]].
  unfold mh_sample. cbn [above below fst snd andb negb mh_loop length Z.of_nat Z.ltb Z.compare].
  unfold mh_step, jump. cbn [first_inside sabove sbelow fst snd andb rbind negb].
  unfold plog. replace (Rltb 0 (1 / 2)) with true by (symmetry; apply Rltb_true; lra).
  reflexivity.
Qed.
Print Assumptions C46_mh_refuted.

(** In every other domain the proposal is the first of a thousand trials strictly inside of
    it; if there is none, RuntimeError is raised. *)
Lemma first_inside_spec : forall D nrm n k, match first_inside D nrm n k with
  | Ok x => exists m, (k <= m < k + n)%nat /\ x = nrm m /\ inside D x /\ forall j, (k <= j < m)%nat -> ~ inside D (nrm j)
  | Err e => e = RuntimeError /\ forall j, (k <= j < k + n)%nat -> ~ inside D (nrm j)
  end.
Proof.
  intros D nrm n. induction n as [|n IH]; intros k; cbn [first_inside].
  { split; [reflexivity|]. intros j H. lia. }
  destruct (sabove D (nrm k) && sbelow D (nrm k)) eqn:E.
  - apply sabove_spec in E. exists k. split; [lia|]. split; [reflexivity|]. split; [exact E|]. intros j H. lia.
  - assert (Ek : ~ inside D (nrm k)) by (rewrite <- sabove_spec, E; discriminate).
    specialize (IH (S k)). destruct (first_inside D nrm n (S k)) as [x|e].
    + destruct IH as (m & Hm & -> & Hi & Hj). exists m. split; [lia|]. split; [reflexivity|]. split; [exact Hi|].
      intros j H. destruct (Nat.eq_dec j k) as [->|]; [exact Ek|]. apply Hj. lia.
    + destruct IH as [-> Hj]. split; [reflexivity|]. intros j H. destruct (Nat.eq_dec j k) as [->|]; [exact Ek|]. apply Hj. lia.
Qed.
Theorem C46_jump_inside : forall D nrm x, D <> (Some 0%R, Some 1%R) -> (forall l, D = (Some l, None) -> (l < 0)%R) ->
  match jump D nrm x with
  | Ok x' => exists m, (m < 1000)%nat /\ x' = nrm m /\ inside D x' /\ forall j, (j < m)%nat -> ~ inside D (nrm j)
  | Err e => e = RuntimeError /\ forall j, (j < 1000)%nat -> ~ inside D (nrm j)
  end.
Proof.
  intros D nrm x H1 H2.
  assert (E : jump D nrm x = first_inside D nrm 1000 0).
  { destruct D as [[l|] [h|]]; try reflexivity; unfold jump.
    - destruct (Reqb l 0) eqn:El; cbn [andb]; [|reflexivity]. destruct (Reqb h 1) eqn:Eh; [|reflexivity].
      apply Reqb_true in El. apply Reqb_true in Eh. subst. contradiction H1. reflexivity.
    - specialize (H2 l eq_refl). destruct (Rleb 0 l) eqn:El; [|reflexivity]. apply Rleb_true in El. exfalso. lra. }
  rewrite E. pose proof (first_inside_spec D nrm 1000 0) as S. destruct (first_inside D nrm 1000 0) as [x'|e].
  - destruct S as (m & Hm & Hx & Hi & Hj). exists m. split; [lia|]. split; [exact Hx|]. split; [exact Hi|]. intros j Hj'. apply Hj. lia.
  - destruct S as [-> Hj]. split; [reflexivity|]. intros j Hj'. apply Hj. lia.
Qed.
Print Assumptions C46_jump_inside.
(** Concrete case: in [\[-1, 2\]] the trials 5, 2 and 1 are proposed in this order; 2 is on the
    boundary. *)
Example C46_jump_inside_ex : jump (Some (-1)%R, Some 2%R) (fun k => match k with 0%nat => 5 | 1%nat => 2 | _ => 1 end)%R 0 = Ok 1%R.
Proof.
  unfold jump. replace (Reqb (-1) 0) with false by (symmetry; apply Reqb_false; lra). cbn [andb].
  change 1000%nat with (S (S (S 997))). cbn [first_inside]. unfold sabove, sbelow. cbn [fst snd].
  replace (Rltb 5 2) with false by (symmetry; apply Rltb_false; lra). replace (Rltb 2 2) with false by (symmetry; apply Rltb_false; lra).
  rewrite !andb_false_r. replace (Rltb (-1) 1) with true by (symmetry; apply Rltb_true; lra).
  replace (Rltb 1 2) with true by (symmetry; apply Rltb_true; lra). reflexivity.
Qed.

(** Proposals folded into [0, 1] are in [0, 1], and the chain raises AssertionError exactly
    at the ends; on a half line that starts above zero the fold can land below it. *)
Theorem C46_jump_unit : forall nrm x, exists x', jump (Some 0%R, Some 1%R) nrm x = Ok x' /\ (0 <= x' <= 1)%R /\
  (x' = Rabs (nrm 0%nat) \/ exists k : Z, Rabs (nrm 0%nat) = (x' + IZR k)%R /\ (x' < 1)%R).
Proof.
  intros nrm x. unfold jump.
  replace (Reqb 0 0 && Reqb 1 1) with true by (symmetry; apply andb_true_intro; split; apply Reqb_true; reflexivity).
  eexists. split; [reflexivity|]. destruct (Rltb 1 (Rabs (nrm 0%nat))) eqn:E.
  - destruct (base_fp (Rabs (nrm 0%nat))) as [A B]. split; [lra|]. right.
    exists (Int_part (Rabs (nrm 0%nat))). split; [|lra]. unfold frac_part. lra.
  - apply Rltb_false in E. split; [|auto]. split; [apply Rabs_pos|lra].
Qed.
Print Assumptions C46_jump_unit.

Theorem C46_jump_half_refuted : exists f nrm rand x, in_dom (Some 1%R, None) x /\
  mh_sample f (Some 1%R, None) nrm rand 1 0 1 1 x = Some (Err AssertionError).
Proof.
  exists flat, (fun _ _ => (-3/2)%R), (fun _ => (1/2)%R), 2%R. split.
  - split; intros v E; inversion E; subst; cbn; lra.
  - unfold mh_sample. cbn [above below fst snd flat].
    replace (Rleb 1 2) with true by (symmetry; apply Rleb_true; lra).
    cbn [andb negb mh_loop length Z.of_nat Z.ltb Z.compare]. unfold mh_step, jump.
    replace (Rleb 0 1) with true by (symmetry; apply Rleb_true; lra). cbn [rbind sabove sbelow fst snd].
    match goal with |- context [Rltb ?a ?b] => replace (Rltb a b) with false end; [reflexivity|].
    symmetry. apply Rltb_false. rewrite Rabs_right; lra.
Qed.
Print Assumptions C46_jump_half_refuted.

(* ------------------------------------------------------------------ *)
(** ** slice_sample *)

Lemma obind_ok : forall {A B} (r : option (res A)) (g : A -> option (res B)) y,
  obind r g = Some (Ok y) -> exists a, r = Some (Ok a) /\ g a = Some (Ok y).
Proof. intros A B [[a|e]|] g y H; cbn in H; try discriminate. eauto. Qed.
Lemma some_ok : forall {A} (r : res A) a, Some r = Some (Ok a) -> r = Ok a.
Proof. intros. injection H as ->. reflexivity. Qed.

(** An end of the bracket is a bound of the domain or a point outside of the slice. *)
Definition outside_slice (f : R -> res ext) (u : ext) (a : R) : Prop :=
  exists v, f a = Ok v /\ eltb u v = false.

Lemma grow_left_spec : forall f D w, (0 <= w)%R -> forall fuel u a a',
  (forall l, fst D = Some l -> (l <= a)%R) ->
  grow_left f D w fuel u a = Some (Ok a') ->
  (a' <= a)%R /\ (forall l, fst D = Some l -> (l <= a')%R) /\ (fst D = Some a' \/ outside_slice f u a').
Proof.
  intros f D w Hw. induction fuel as [|fuel IH]; intros u a a' Hl H; [discriminate|].
  cbn [grow_left] in H. apply obind_ok in H. destruct H as (fa & F & H). apply some_ok in F.
  destruct (eltb u fa) eqn:E.
  - destruct (fst D) as [l|] eqn:Dl.
    + destruct (Rltb (a - w) l) eqn:L.
      * injection H as <-. specialize (Hl l eq_refl). split; [exact Hl|].
        split; [intros l' El; injection El as <-; lra|auto].
      * apply Rltb_false in L. destruct (IH u (a - w)%R a') as (A & B & C); auto.
        { intros l' El. injection El as <-. lra. }
        split; [lra|auto].
    + destruct (IH u (a - w)%R a') as (A & B & C); auto. { discriminate. }
      split; [lra|auto].
  - injection H as <-. split; [lra|]. split; [exact Hl|]. right. exists fa. auto.
Qed.
Lemma grow_right_spec : forall f D w, (0 <= w)%R -> forall fuel u b b',
  (forall h, snd D = Some h -> (b <= h)%R) ->
  grow_right f D w fuel u b = Some (Ok b') ->
  (b <= b')%R /\ (forall h, snd D = Some h -> (b' <= h)%R) /\ (snd D = Some b' \/ outside_slice f u b').
Proof.
  intros f D w Hw. induction fuel as [|fuel IH]; intros u a a' Hl H; [discriminate|].
  cbn [grow_right] in H. apply obind_ok in H. destruct H as (fa & F & H). apply some_ok in F.
  destruct (eltb u fa) eqn:E.
  - destruct (snd D) as [l|] eqn:Dl.
    + destruct (Rltb l (a + w)) eqn:L.
      * injection H as <-. specialize (Hl l eq_refl). split; [exact Hl|].
        split; [intros l' El; injection El as <-; lra|auto].
      * apply Rltb_false in L. destruct (IH u (a + w)%R a') as (A & B & C); auto.
        { intros l' El. injection El as <-. lra. }
        split; [lra|auto].
    + destruct (IH u (a + w)%R a') as (A & B & C); auto. { discriminate. }
      split; [lra|auto].
  - injection H as <-. split; [lra|]. split; [exact Hl|]. right. exists fa. auto.
Qed.

(** The bracket found contains the current point and lies in the domain, and each of its
    ends is a bound of the domain or outside of the slice. *)
Theorem C46_bracket : forall f D w fuel r x u a b,
  (0 <= w)%R -> (0 <= r <= 1)%R -> in_dom D x ->
  find_slice_interval f D w fuel r x u = Some (Ok (a, b)) ->
  (a <= x <= b)%R /\ in_dom D a /\ in_dom D b /\
  (fst D = Some a \/ outside_slice f u a) /\ (snd D = Some b \/ outside_slice f u b).
Proof.
  intros f D w fuel r x u a b Hw Hr [Lo Hi] H. unfold find_slice_interval in H.
  apply obind_ok in H. destruct H as (a0 & A & H). apply obind_ok in H. destruct H as (b0 & B & H).
  injection H as -> ->.
  assert (RA : (x - r * w <= x)%R) by (assert (0 <= r * w)%R by (apply Rmult_le_pos; lra); lra).
  assert (RB : (x <= x + (1 - r) * w)%R) by (assert (0 <= (1 - r) * w)%R by (apply Rmult_le_pos; lra); lra).
  assert (PA : (a <= x)%R /\ (forall l, fst D = Some l -> (l <= a)%R) /\ (fst D = Some a \/ outside_slice f u a)).
  { destruct (fst D) as [l|] eqn:Dl.
    - destruct (Rltb (x - r * w) l) eqn:L.
      + injection A as <-. split; [apply Lo; reflexivity|]. split; [|auto]. intros l' E. injection E as <-. lra.
      + apply Rltb_false in L. apply grow_left_spec in A; [|exact Hw|rewrite Dl; intros l' E; injection E as <-; lra].
        rewrite Dl in A. destruct A as (A1 & A2 & A3). split; [lra|auto].
    - apply grow_left_spec in A; [|exact Hw|rewrite Dl; discriminate].
      rewrite Dl in A. destruct A as (A1 & A2 & A3). split; [lra|auto]. }
  assert (PB : (x <= b)%R /\ (forall l, snd D = Some l -> (b <= l)%R) /\ (snd D = Some b \/ outside_slice f u b)).
  { destruct (snd D) as [l|] eqn:Dl.
    - destruct (Rltb l (x + (1 - r) * w)) eqn:L.
      + injection B as <-. split; [apply Hi; reflexivity|]. split; [|auto]. intros l' E. injection E as <-. lra.
      + apply Rltb_false in L. apply grow_right_spec in B; [|exact Hw|rewrite Dl; intros l' E; injection E as <-; lra].
        rewrite Dl in B. destruct B as (A1 & A2 & A3). split; [lra|auto].
    - apply grow_right_spec in B; [|exact Hw|rewrite Dl; discriminate].
      rewrite Dl in B. destruct B as (A1 & A2 & A3). split; [lra|auto]. }
  destruct PA as (A1 & A2 & A3), PB as (B1 & B2 & B3).
  split; [lra|]. split; [|split; [|auto]]; split; intros v E.
  - auto.
  - specialize (Hi v E). lra.
  - specialize (Lo v E). lra.
  - auto.
Qed.
Print Assumptions C46_bracket.

Definition uniform_ok (uni : nat -> R -> R -> R) : Prop :=
  forall k a b, (a <= b)%R -> (a <= uni k a b <= b)%R.

Lemma shrink_spec : forall f uni, uniform_ok uni -> forall fuel u x a b k x',
  (a <= x <= b)%R -> shrink f fuel uni u x a b k = Some (Ok x') ->
  (a <= x' <= b)%R /\ exists v, f x' = Ok v /\ eltb u v = true.
Proof.
  intros f uni Hu. induction fuel as [|fuel IH]; intros u x a b k x' Hx H; [discriminate|].
  cbn [shrink] in H. apply obind_ok in H. destruct H as (fa & F & H). apply some_ok in F.
  pose proof (Hu k a b ltac:(lra)) as Ha.
  destruct (eltb u fa) eqn:E; [injection H as <-; eauto|].
  destruct (Rltb x (uni k a b)) eqn:L.
  - apply Rltb_true in L. apply IH in H; [|lra]. destruct H as [H1 H2]. split; [lra|exact H2].
  - apply Rltb_false in L. apply IH in H; [|lra]. destruct H as [H1 H2]. split; [lra|exact H2].
Qed.

(** One step of the slice sampler, spelled out: the next point is in the domain and its log
    density exceeds the height drawn under the density of the current one. *)
Definition slice_moves (f : R -> res ext) (D : dom) (rand : R) (x x' : R) : Prop :=
  exists fx v, (0 < rand)%R /\ f x = Ok fx /\ f x' = Ok v /\
    eltb (eadd (Fin (ln rand)) fx) v = true /\ in_dom D x'.
Definition slice_chain f D (rand : Z -> R) (x : R) (T : nat) (chain : Z -> R) : Prop :=
  chain 0 = x /\
  forall i, 1 <= i <= Z.of_nat T -> slice_moves f D (rand i) (chain (i - 1)) (chain i).

Lemma eltb_positive : forall u v, eltb u v = true -> v = PInf \/ exists w, v = Fin w.
Proof. intros [ | | | ] [ | | | ] H; cbn in H; try discriminate; eauto. Qed.

Definition slice_keep (burn lag i : Z) : bool := (burn <=? i) && (i mod lag =? 0).

Lemma slice_loop_spec : forall f D w rand1 rand2 uni num burn lag,
  (0 <= w)%R -> (forall i, 0 <= rand2 i <= 1)%R -> (forall i, uniform_ok (uni i)) ->
  forall inner fuel T x0 chain l,
  in_dom D x0 -> slice_chain f D rand1 x0 T chain ->
  slice_loop f D w rand1 rand2 uni num burn lag fuel inner (Z.of_nat T) (chain (Z.of_nat T))
    (map chain (kept (slice_keep burn lag) T)) = Some (Ok l) ->
  (length (kept (slice_keep burn lag) T) <= Z.to_nat num)%nat ->
  exists T' chain', slice_chain f D rand1 x0 T' chain' /\
    l = map chain' (kept (slice_keep burn lag) T') /\ length l = Z.to_nat num.
Proof.
  intros f D w rand1 rand2 uni num burn lag Hw Hr Hu inner.
  induction fuel as [|fuel IH]; intros T x0 chain l X0 C H Le.
  - cbn [slice_loop] in H. destruct (_ <? num) eqn:E; [discriminate|]. apply Z.ltb_ge in E.
    injection H as <-. exists T, chain. split; [exact C|]. split; [reflexivity|].
    rewrite map_length in *. lia.
  - cbn [slice_loop] in H. destruct (_ <? num) eqn:E.
    + apply Z.ltb_lt in E. rewrite map_length in E.
      apply obind_ok in H. destruct H as (lu & Lu & H). apply some_ok in Lu. apply plog_inv in Lu. destruct Lu as [Pu ->].
      apply obind_ok in H. destruct H as (fx & Fx & H). apply some_ok in Fx.
      apply obind_ok in H. destruct H as ([a b] & Iv & H).
      apply obind_ok in H. destruct H as (x' & Sh & H).
      assert (Dx : in_dom D (chain (Z.of_nat T))).
      { destruct C as [C0 C1]. destruct T as [|T]; [change (Z.of_nat 0) with 0; rewrite C0; exact X0|].
        destruct (C1 (Z.of_nat (S T)) ltac:(lia)) as (? & ? & _ & _ & _ & _ & ?). assumption. }
      destruct (C46_bracket _ _ _ _ _ _ _ _ _ Hw (Hr _) Dx Iv) as (Bx & Da & Db & _).
      destruct (shrink_spec _ _ (Hu _) _ _ _ _ _ _ _ Bx Sh) as (Bx' & v & Fv & Lv).
      assert (Dx' : in_dom D x').
      { destruct Da as [Da _], Db as [_ Db]. split; intros q Eq; [specialize (Da q Eq)|specialize (Db q Eq)]; lra. }
      set (chain2 := fun i => if i =? Z.of_nat T + 1 then x' else chain i).
      assert (Old : forall i, i <= Z.of_nat T -> chain2 i = chain i).
      { intros i Hi. unfold chain2. destruct (Z.eqb_spec i (Z.of_nat T + 1)); [lia|reflexivity]. }
      assert (New : chain2 (Z.of_nat (S T)) = x').
      { unfold chain2. destruct (Z.eqb_spec (Z.of_nat (S T)) (Z.of_nat T + 1)); [reflexivity|lia]. }
      assert (C2 : slice_chain f D rand1 x0 (S T) chain2).
      { destruct C as [C0 C1]. split; [rewrite Old by lia; exact C0|].
        intros i Hi. destruct (Z.eq_dec i (Z.of_nat T + 1)) as [->|Ne].
        - replace (Z.of_nat T + 1 - 1) with (Z.of_nat T) by lia. rewrite Old by lia.
          replace (chain2 (Z.of_nat T + 1)) with x' by (replace (Z.of_nat T + 1) with (Z.of_nat (S T)) by lia; auto).
          exists fx, v. auto.
        - rewrite !Old by lia. apply C1. lia. }
      assert (Ks : map chain2 (kept (slice_keep burn lag) (S T)) =
                   map chain (kept (slice_keep burn lag) T) ++
                   (if slice_keep burn lag (Z.of_nat (S T)) then [x'] else [])).
      { rewrite kept_snoc, map_app. f_equal.
        - apply map_ext_in. intros i Hi. apply kept_in in Hi. rewrite Old by lia. reflexivity.
        - destruct (slice_keep burn lag (Z.of_nat (S T))); [|reflexivity]. cbn [map]. rewrite New. reflexivity. }
      assert (Ln : (length (kept (slice_keep burn lag) (S T)) <= Z.to_nat num)%nat).
      { rewrite kept_snoc, app_length. destruct (slice_keep burn lag (Z.of_nat (S T))); cbn [length]; lia. }
      replace (Z.of_nat T + 1) with (Z.of_nat (S T)) in H by lia.
      change (slice_keep burn lag (Z.of_nat (S T))) with ((burn <=? Z.of_nat (S T)) && (Z.of_nat (S T) mod lag =? 0)) in Ks.
      apply (IH (S T) x0 chain2 l X0 C2); [|exact Ln]. rewrite New.
      destruct (burn <=? Z.of_nat (S T)) eqn:B.
      * destruct (lag =? 0); [discriminate|]. cbn [andb] in Ks.
        destruct (Z.of_nat (S T) mod lag =? 0); rewrite Ks; [exact H|].
        rewrite app_nil_r. exact H.
      * cbn [andb] in Ks. rewrite Ks, app_nil_r. exact H.
    + apply Z.ltb_ge in E. injection H as <-. exists T, chain. split; [exact C|]. split; [reflexivity|].
      rewrite map_length in *. lia.
Qed.

(** slice_sample, started in the domain, runs a chain of such steps and returns the points
    after those of the iterations 1, 2, ... which do not come before the [burn]-th and are
    multiples of [lag]. *)
Theorem C46_slice_chain : forall f D w rand1 rand2 uni num burn lag fuel inner x r,
  (0 <= w)%R -> (forall i, 0 <= rand2 i <= 1)%R -> (forall i, uniform_ok (uni i)) -> in_dom D x ->
  slice_sample f D w rand1 rand2 uni num burn lag fuel inner x = Some (Ok r) ->
  exists T chain, slice_chain f D rand1 x T chain /\
    sampled r = map chain (kept (fun i => (burn <=? i) && (i mod lag =? 0)) T) /\
    length (sampled r) = Z.to_nat num.
Proof.
  intros f D w rand1 rand2 uni num burn lag fuel inner x r Hw Hr Hu Hx H. unfold slice_sample in H.
  destruct (slice_loop _ _ _ _ _ _ _ _ _ _ _ _ _ _) as [[l|e]|] eqn:L; try discriminate. cbn [rbind] in H.
  assert (C : slice_chain f D rand1 x 0 (fun _ => x)).
  { split; [reflexivity|]. intros i Hi. lia. }
  destruct (slice_loop_spec f D w rand1 rand2 uni num burn lag Hw Hr Hu inner fuel 0 x _ l Hx C L) as (T & ch & C' & E & Ln); [cbn; lia|].
  exists T, ch. split; [exact C'|]. injection H as H.
  assert (Sa : sampled r = l).
  { apply (as_result_sampled num l r H). destruct (Z.eq_dec num 1) as [->|]; auto. }
  rewrite Sa. auto.
Qed.
Print Assumptions C46_slice_chain.

(** Hence every point returned lies in the domain and has positive density, whatever the
    density of the start; there are as many as asked for. *)
Theorem C46_slice : forall f D w rand1 rand2 uni num burn lag fuel inner x r,
  (0 <= w)%R -> (forall i, 0 <= rand2 i <= 1)%R -> (forall i, uniform_ok (uni i)) -> in_dom D x ->
  slice_sample f D w rand1 rand2 uni num burn lag fuel inner x = Some (Ok r) ->
  length (sampled r) = Z.to_nat num /\ Forall (fun y => in_dom D y /\ positive_at f y) (sampled r).
Proof.
  intros f D w rand1 rand2 uni num burn lag fuel inner x r Hw Hr Hu Hx H.
  destruct (C46_slice_chain _ _ _ _ _ _ _ _ _ _ _ _ _ Hw Hr Hu Hx H) as (T & ch & [C0 C] & E & Ln).
  split; [exact Ln|]. rewrite E. apply Forall_forall. intros y Hy.
  apply in_map_iff in Hy. destruct Hy as (i & <- & Hi). apply kept_in in Hi. destruct Hi as [Hi _].
  destruct (C i Hi) as (fx & v & _ & _ & Fv & Lv & Dv). split; [exact Dv|]. unfold positive_at. rewrite Fv.
  destruct (eltb_positive _ _ Lv) as [->|[q ->]]; eauto.
Qed.
Print Assumptions C46_slice.

(** Concrete case on [0, 1] with a flat density: the bracket is [0, 1], the first uniform
    draw, its midpoint, is taken. *)
Definition mid : nat -> R -> R -> R := fun _ a b => ((a + b) / 2)%R.
Lemma mid_ok : uniform_ok mid.
Proof. intros k a b H. unfold mid. lra. Qed.
Example C46_slice_ex : slice_sample flat (Some 0%R, Some 1%R) 4 (fun _ => (1/2)%R) (fun _ => (1/2)%R) (fun _ => mid) 1 0 1 1 1 (1/3)%R
  = Some (Ok (One ((0 + 1) / 2)%R)) /\
  (0 <= 4)%R /\ (forall i : Z, 0 <= 1/2 <= 1)%R /\ (forall i : Z, uniform_ok mid) /\ in_dom (Some 0%R, Some 1%R) (1/3)%R.
Proof.
  split.
  - unfold slice_sample. cbn [slice_loop length Z.of_nat Z.ltb Z.compare]. unfold plog.
    replace (Rltb 0 (1 / 2)) with true by (symmetry; apply Rltb_true; lra). cbn [obind flat eadd].
    unfold find_slice_interval. cbn [fst snd].
    match goal with |- context [Rltb ?a ?b] => replace (Rltb a b) with true by (symmetry; apply Rltb_true; lra) end. cbn [obind].
    match goal with |- context [Rltb ?a ?b] => replace (Rltb a b) with true by (symmetry; apply Rltb_true; lra) end.
    cbn [obind shrink flat eltb]. pose proof ln_half.
    match goal with |- context [Rltb ?a ?b] => replace (Rltb a b) with true by (symmetry; apply Rltb_true; lra) end.
    reflexivity.
  - split; [lra|]. split; [intros; lra|]. split; [intros; apply mid_ok|]. split; intros v E; inversion E; subst; lra.
Qed.

(** A start outside of the domain is not noticed, and the point returned may be outside. *)
Theorem C46_slice_refuted : exists f D w rand1 rand2 uni x y,
  (0 <= w)%R /\ (forall i, 0 <= rand2 i <= 1)%R /\ (forall i, uniform_ok (uni i)) /\
  slice_sample f D w rand1 rand2 uni 1 0 1 1 1 x = Some (Ok (One y)) /\ ~ in_dom D y.
Proof.
  exists (fun y => Ok (if Reqb y (3 - 1/2 * 1) then NInf else Fin 0)), (Some 0%R, Some 1%R), 1%R, (fun _ => (1/2)%R), (fun _ => (1/2)%R), (fun _ => mid),
    3%R, ((3 - 1/2 * 1 + 1) / 2)%R.
  split; [lra|]. split; [intros; lra|]. split; [intros; apply mid_ok|].
  split.
  - unfold slice_sample. cbn [slice_loop length Z.of_nat Z.ltb Z.compare]. unfold plog.
    replace (Rltb 0 (1 / 2)) with true by (symmetry; apply Rltb_true; lra). cbn [obind].
    replace (Reqb 3 (3 - 1/2 * 1)) with false by (symmetry; apply Reqb_false; lra). cbn [eadd].
    unfold find_slice_interval. cbn [fst snd].
    match goal with |- context [Rltb ?a ?b] => replace (Rltb a b) with false by (symmetry; apply Rltb_false; lra) end.
    cbn [grow_left obind]. rewrite Reqb_refl. cbn [eltb obind].
    match goal with |- context [Rltb ?a ?b] => replace (Rltb a b) with true by (symmetry; apply Rltb_true; lra) end.
    cbn [obind shrink]. unfold mid at 1.
    match goal with |- context [Reqb ?a ?b] => replace (Reqb a b) with false by (symmetry; apply Reqb_false; lra) end.
    cbn [eltb]. pose proof ln_half.
    match goal with |- context [Rltb ?a ?b] => replace (Rltb a b) with true by (symmetry; apply Rltb_true; lra) end.
    reflexivity.
  - intros [_ B]. specialize (B 1%R eq_refl). lra.
Qed.
Print Assumptions C46_slice_refuted.

(* ------------------------------------------------------------------ *)
(** ** rejection_sample *)

(** The [i]-th draw, with its two densities, is below the proposal's and is kept exactly
    when the scaled uniform is below the target's. *)
Definition rejection_run (target proposal : R -> res ext) (draw : nat -> res R) (rand : nat -> R)
    (T : nat) (xs : nat -> R) (keep : nat -> bool) : Prop :=
  forall i, (i < T)%nat -> draw i = Ok (xs i) /\
    exists q p, proposal (xs i) = Ok q /\ target (xs i) = Ok p /\
      (eltb p q = true \/ eeqb p q = true) /\ keep i = eltb (fscale (rand i) q) p.

Lemma rejection_loop_spec : forall target proposal draw rand num fuel T xs keep l,
  rejection_run target proposal draw rand T xs keep ->
  rejection_loop target proposal draw rand num fuel T (map xs (filter keep (seq 0 T))) = Some (Ok l) ->
  (length (filter keep (seq 0 T)) <= Z.to_nat num)%nat ->
  exists T' xs' keep', rejection_run target proposal draw rand T' xs' keep' /\
    l = map xs' (filter keep' (seq 0 T')) /\ length l = Z.to_nat num.
Proof.
  intros target proposal draw rand num. induction fuel as [|fuel IH]; intros T xs keep l C H Le.
  - cbn [rejection_loop] in H. destruct (_ <? num) eqn:E; [discriminate|]. apply Z.ltb_ge in E.
    injection H as <-. exists T, xs, keep. split; [exact C|]. split; [reflexivity|].
    rewrite map_length in *. lia.
  - cbn [rejection_loop] in H. destruct (_ <? num) eqn:E.
    + apply Z.ltb_lt in E. rewrite map_length in E.
      apply obind_ok in H. destruct H as (x & Dx & H). apply some_ok in Dx.
      apply obind_ok in H. destruct H as (q & Qx & H). apply some_ok in Qx.
      apply obind_ok in H. destruct H as (p & Px & H). apply some_ok in Px.
      destruct (eleb p q) eqn:Lpq; cbn [negb] in H; [|discriminate].
      unfold eleb in Lpq. apply orb_true_iff in Lpq.
      set (xs2 := fun i => if Nat.eqb i T then x else xs i).
      set (keep2 := fun i => if Nat.eqb i T then eltb (fscale (rand T) q) p else keep i).
      assert (Ks : map xs2 (filter keep2 (seq 0 (S T))) =
                   map xs (filter keep (seq 0 T)) ++ (if eltb (fscale (rand T) q) p then [x] else [])).
      { rewrite seq_S, filter_app, map_app. f_equal.
        - replace (filter keep2 (seq 0 T)) with (filter keep (seq 0 T)).
          + apply map_ext_in. intros i Hi. apply filter_In in Hi. destruct Hi as [Hi _]. apply in_seq in Hi.
            unfold xs2. destruct (Nat.eqb_spec i T); [lia|reflexivity].
          + apply filter_ext_in. intros i Hi. apply in_seq in Hi.
            unfold keep2. destruct (Nat.eqb_spec i T); [lia|reflexivity].
        - cbn [filter Nat.add]. replace (keep2 T) with (eltb (fscale (rand T) q) p) by (unfold keep2; rewrite Nat.eqb_refl; reflexivity).
          destruct (eltb (fscale (rand T) q) p); [|reflexivity]. cbn [map].
          unfold xs2. rewrite Nat.eqb_refl. reflexivity. }
      apply (IH (S T) xs2 keep2 l).
      * intros i Hi. unfold xs2, keep2. destruct (Nat.eqb_spec i T) as [->|Ne]; [|apply C; lia].
        split; [exact Dx|]. exists q, p. auto.
      * rewrite Ks. destruct (eltb (fscale (rand T) q) p); [exact H|rewrite app_nil_r; exact H].
      * assert (Ln : length (map xs2 (filter keep2 (seq 0 (S T)))) = length (map xs (filter keep (seq 0 T)) ++ (if eltb (fscale (rand T) q) p then [x] else []))) by (rewrite Ks; reflexivity).
        rewrite app_length, !map_length in Ln. destruct (eltb (fscale (rand T) q) p); cbn [length] in Ln; lia.
    + apply Z.ltb_ge in E. injection H as <-. exists T, xs, keep. split; [exact C|]. split; [reflexivity|].
      rewrite map_length in *. lia.
Qed.

(** rejection_sample returns, in order, those of the proposal's draws at which the scaled
    uniform is below the target's density; as many as asked for. *)
Theorem C46_rejection_run : forall target proposal draw rand num fuel r,
  rejection_sample target proposal draw rand num fuel = Some (Ok r) ->
  exists T xs keep, rejection_run target proposal draw rand T xs keep /\
    sampled r = map xs (filter keep (seq 0 T)) /\ length (sampled r) = Z.to_nat num.
Proof.
  intros target proposal draw rand num fuel r H. unfold rejection_sample in H.
  destruct (rejection_loop target proposal draw rand num fuel 0 []) as [[l|e]|] eqn:L; try discriminate. cbn [rbind] in H.
  destruct (rejection_loop_spec target proposal draw rand num fuel 0 (fun _ => 0%R) (fun _ => false) l) as (T & xs & keep & C & E & Ln).
  - intros i Hi. lia.
  - exact L.
  - cbn; lia.
  - exists T, xs, keep. split; [exact C|]. injection H as H.
    assert (Sa : sampled r = l).
    { apply (as_result_sampled num l r H). destruct (Z.eq_dec num 1) as [->|]; auto. }
    rewrite Sa. auto.
Qed.
Print Assumptions C46_rejection_run.

(** Every point returned was drawn from the proposal and has a finite positive density,
    at most the proposal's (so a proposal confined to a domain gives points of the
    domain). *)
Theorem C46_rejection : forall target proposal draw rand num fuel r,
  (forall i, 0 <= rand i < 1)%R ->
  rejection_sample target proposal draw rand num fuel = Some (Ok r) ->
  length (sampled r) = Z.to_nat num /\
  forall y, In y (sampled r) -> (exists i, draw i = Ok y) /\
    exists p q, target y = Ok (Fin p) /\ proposal y = Ok (Fin q) /\ (0 < p <= q)%R.
Proof.
  intros target proposal draw rand num fuel r Hr H.
  destruct (C46_rejection_run _ _ _ _ _ _ _ H) as (T & xs & keep & C & E & Ln).
  split; [exact Ln|]. intros y Hy. rewrite E in Hy. apply in_map_iff in Hy. destruct Hy as (i & <- & Hi).
  apply filter_In in Hi. destruct Hi as [Hi K]. apply in_seq in Hi.
  destruct (C i ltac:(lia)) as (Dx & q & p & Q & P & Le & Kp). rewrite K in Kp.
  split; [eauto|]. symmetry in Kp. specialize (Hr i).
  assert (Sg : Reqb (rand i) 0 = false -> Rltb 0 (rand i) = true).
  { intros N. apply Reqb_false in N. apply Rltb_true. lra. }
  destruct q as [q| | |], p as [p| | |]; cbn [fscale eltb eeqb] in *;
    try (destruct Le; discriminate); try discriminate;
    try (destruct (Reqb (rand i) 0); [|rewrite (Sg eq_refl) in Kp]; discriminate Kp).
  exists p, q. split; [exact P|]. split; [exact Q|]. apply Rltb_true in Kp.
  assert (Lq : (p <= q)%R). { destruct Le as [Le|Le]; [apply Rltb_true in Le|apply Reqb_true in Le]; lra. }
  split; [|exact Lq]. destruct (Rle_or_lt 0 q) as [Q0|Q0].
  - assert (0 <= rand i * q)%R by (apply Rmult_le_pos; lra). lra.
  - assert (q <= rand i * q)%R by nra. lra.
Qed.
Print Assumptions C46_rejection.

(** Concrete case: a target half of the proposal's density, uniforms 1/4 and up. *)
Example C46_rejection_ex :
  rejection_sample (fun _ => Ok (Fin (1/2))) (fun _ => Ok (Fin 1)) (fun i => Ok (INR i))
    (fun i => if Nat.eqb i 0 then 3/4 else 1/4)%R 2 3 = Some (Ok (Many [INR 1; INR 2])) /\
  (forall i : nat, 0 <= (if Nat.eqb i 0 then 3/4 else 1/4) < 1)%R.
Proof.
  split.
  - unfold rejection_sample. cbn [rejection_loop length Z.of_nat Z.ltb Z.compare obind Nat.eqb fscale].
    replace (eleb (Fin (1/2)) (Fin 1)) with true
      by (unfold eleb; cbn [eltb]; symmetry; apply orb_true_iff; left; apply Rltb_true; lra).
    cbn [negb eltb].
    replace (Rltb (3 / 4 * 1) (1 / 2)) with false by (symmetry; apply Rltb_false; lra).
    replace (Rltb (1 / 4 * 1) (1 / 2)) with true by (symmetry; apply Rltb_true; lra).
    reflexivity.
  - intros i. destruct (Nat.eqb i 0); lra.
Qed.

(** The docstring asks for log densities.  With those, wherever the proposal's is negative
    (a density below one) nothing is ever accepted: the call does not return. *)
Theorem C46_rejection_log : forall target proposal draw rand num fuel,
  0 < num -> (forall i, 0 <= rand i < 1)%R ->
  (forall i, exists x q p, draw i = Ok x /\ proposal x = Ok (Fin q) /\ target x = Ok (Fin p) /\ (p <= q < 0)%R) ->
  rejection_sample target proposal draw rand num fuel = None.
Proof.
  intros target proposal draw rand num fuel Hn Hr Hd. unfold rejection_sample.
  assert (K : forall i, rejection_loop target proposal draw rand num fuel i [] = None); [|rewrite K; reflexivity].
  induction fuel as [|fuel IH]; intros i; cbn [rejection_loop length Z.of_nat];
    (destruct (Z.ltb_spec 0 num); [|lia]); [reflexivity|].
  destruct (Hd i) as (x & q & p & D & Q & P & L). rewrite D. cbn [obind]. rewrite Q. cbn [obind]. rewrite P. cbn [obind fscale].
  replace (eleb (Fin p) (Fin q)) with true.
  2:{ unfold eleb. cbn [eltb eeqb]. symmetry. apply orb_true_iff.
      destruct (Rle_lt_or_eq_dec p q) as [X|X]; [lra|left; apply Rltb_true; lra|right; apply Reqb_true; lra]. }
  cbn [negb eltb]. replace (Rltb (rand i * q) p) with false; [apply IH|].
  symmetry. apply Rltb_false. specialize (Hr i). nra.
Qed.
Print Assumptions C46_rejection_log.
Example C46_rejection_log_ex : exists (target proposal : R -> res ext) (draw : nat -> res R) (rand : nat -> R),
  (forall i, 0 <= rand i < 1)%R /\
  (forall i, exists x q p, draw i = Ok x /\ proposal x = Ok (Fin q) /\ target x = Ok (Fin p) /\ (p <= q < 0)%R).
Proof.
  exists (fun _ => Ok (Fin (-2))), (fun _ => Ok (Fin (-1))), (fun _ => Ok 0%R), (fun _ => (1/2)%R).
  split; [intros; lra|]. intros i. exists 0%R, (-1)%R, (-2)%R. repeat split; lra.
Qed.
