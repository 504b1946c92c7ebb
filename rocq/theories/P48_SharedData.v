(** C71: the lists of cells that states hold, and what happens when two hold the same one. *)
From Verif Require Import SharedData BaseFacts LogSpaceFacts StateFacts P07_View.
From Coq Require Import Lia Lra List ZArith.
Import ListNotations.
Local Open Scope nat_scope.

(* ------------------------------------------------------------------ *)
(** ** What is claimed *)

(** A state holds the list at [r] as its column [c]. *)
Definition holds (s : holder) (c : Z) (r : nat) : Prop := In c (h_outs s) /\ dget c (h_X s) = Some r.
Definition at_address (s : holder) (r : nat) (c : Z) : bool :=
  match dget c (h_X s) with Some r' => Nat.eqb r' r | None => false end.
(** The cells that one state adds to the list at [r]: one for every column held there. *)
Definition gain (obs : dict cell) (r : nat) (s : holder) : list cell :=
  map (cell_for obs) (filter (at_address s r) (h_outs s)).
(** The row that an observation means for a state. *)
Definition row_for (obs : dict cell) (s : holder) : dict cell := map (fun c => (c, cell_for obs c)) (h_outs s).

(** No list is held twice: not by two states, nor by one state for two columns. *)
Definition apart (ss : list holder) : Prop :=
  forall i j s s' c d r, nth_error ss i = Some s -> nth_error ss j = Some s' ->
    holds s c r -> holds s' d r -> i = j /\ c = d.
Definition proper (s : holder) : Prop :=
  NoDup (h_outs s) /\ h_outs s <> [] /\ forall c, In c (h_outs s) -> exists r, dget c (h_X s) = Some r.
(** Every column has [n] cells. *)
Definition square (m : memory) (ss : list holder) (n : nat) : Prop :=
  forall s c r, In s ss -> holds s c r -> length (m r) = n.
(** An observation that no state refuses: known columns and no missing cell. *)
Definition fits (ss : list holder) (obs : dict cell) : Prop :=
  (forall s c, In s ss -> In c (dkeys obs) -> In c (h_outs s)) /\ (forall x, In x (dvals obs) -> x <> None).

(* ------------------------------------------------------------------ *)
(** ** One state *)

Lemma append_ok s obs : forall outs m m', append_cells (h_X s) obs outs m = (m', Ok tt) ->
  forall r, m' r = m r ++ map (cell_for obs) (filter (at_address s r) outs).
Proof.
  induction outs as [|c outs IH]; intros m m' E r.
  - cbn in E. injection E as <-. cbn. rewrite app_nil_r. reflexivity.
  - cbn [append_cells] in E. cbn [filter]. unfold at_address at 1. destruct (dget c (h_X s)) as [r0|]; [|discriminate].
    rewrite (IH _ _ E r). unfold write. rewrite (Nat.eqb_sym r0 r). destruct (Nat.eqb r r0) eqn:Er.
    + apply Nat.eqb_eq in Er. subst r0. cbn [map]. rewrite <- app_assoc. reflexivity.
    + reflexivity.
Qed.
Lemma append_total X obs : forall outs m, (forall c, In c outs -> exists r, dget c X = Some r) ->
  exists m', append_cells X obs outs m = (m', Ok tt).
Proof.
  induction outs as [|c outs IH]; intros m H; [eexists; reflexivity|]. cbn [append_cells].
  destruct (H c (or_introl eq_refl)) as [r ->]. apply IH. intros d Hd. apply H. right. exact Hd.
Qed.

Lemma read_ok m s rowid row : read_row m s rowid = Ok row ->
  map fst row = h_outs s /\ forall c x, In (c, x) row -> exists r, holds s c r /\ py_nth (m r) rowid = Ok x.
Proof.
  unfold read_row. intros E. apply rsequence_ok in E.
  assert (G : forall outs row, map (fun c => match dget c (h_X s) with
                           | None => Err KeyError
                           | Some r => rbind (py_nth (m r) rowid) (fun x => Ok (c, x))
                           end) outs = map Ok row ->
    map fst row = outs /\ forall c x, In (c, x) row -> In c outs /\ exists r, dget c (h_X s) = Some r /\ py_nth (m r) rowid = Ok x).
  { clear. induction outs as [|c outs IH]; intros [|[d x] row] E; try discriminate; [split; [reflexivity|intros c x []]|].
    cbn [map] in E. injection E as E1 E2. destruct (IH _ E2) as [I1 I2].
    destruct (dget c (h_X s)) as [r|] eqn:Er; [|discriminate].
    destruct (py_nth (m r) rowid) as [y|] eqn:Ey; [|discriminate]. cbn [rbind] in E1. injection E1 as <- <-.
    split; [cbn; rewrite I1; reflexivity|]. intros e z [Ez|Hz].
    - injection Ez as <- <-. split; [left; reflexivity|]. eauto.
    - destruct (I2 e z Hz) as [J1 J2]. split; [right; exact J1|exact J2]. }
  destruct (G _ _ E) as [G1 G2]. split; [exact G1|]. intros c x Hx. destruct (G2 c x Hx) as [H1 [r [H2 H3]]].
  exists r. split; [split; assumption|exact H3].
Qed.
Lemma py_nth_ok {A} (l : list A) i x : (0 <= i)%Z -> py_nth l i = Ok x <-> nth_error l (Z.to_nat i) = Some x.
Proof.
  intros Hi. unfold py_nth. replace (i <? 0)%Z with false by (symmetry; apply Z.ltb_ge; lia).
  replace (0 <=? i)%Z with true by (symmetry; apply Z.leb_le; lia).
  destruct (nth_error l (Z.to_nat i)); split; intros E; congruence.
Qed.

Lemma hold_row_ok s rowid obs m m' row : hold_row s rowid obs m = (m', Ok row) ->
  (0 <= rowid)%Z /\ held_rows m s = Ok rowid /\ (forall r, m' r = m r ++ gain obs r s) /\ map fst row = h_outs s /\
  forall c x, In (c, x) row -> exists r, holds s c r /\ nth_error (m' r) (Z.to_nat rowid) = Some x.
Proof.
  unfold hold_row. destruct (held_rows m s) as [n|e] eqn:En; [|intros; discriminate].
  destruct (rowid =? n)%Z eqn:Hn; [|intros; discriminate]. cbn [negb]. apply Z.eqb_eq in Hn. subst n.
  destruct (negb (forallb _ (dkeys obs))); [intros; discriminate|].
  destruct (existsb _ (dvals obs)); [intros; discriminate|].
  destruct (append_cells (h_X s) obs (h_outs s) m) as [m1 r1] eqn:Ea. destruct r1 as [[]|]; [|intros; discriminate].
  pose proof (append_ok s obs _ _ _ Ea) as G. unfold held_rows in *. destruct (h_outs s) as [|c0 outs] eqn:Eo; [discriminate|].
  destruct (dget c0 (h_X s)) as [r0|] eqn:E0; [|discriminate]. injection En as En.
  assert (L : (rowid + 1 <= Z.of_nat (length (m1 r0)))%Z).
  { rewrite G. cbn [filter]. unfold at_address at 1. rewrite E0, Nat.eqb_refl. cbn [map]. rewrite app_length. cbn [length]. lia. }
  replace (hypothetical (Z.of_nat (length (m1 r0))) rowid) with false.
  2: { unfold hypothetical. symmetry. apply Bool.negb_false_iff, andb_true_intro. split; [apply Z.leb_le|apply Z.ltb_lt]; lia. }
  intros E. injection E as <- E. apply read_ok in E. destruct E as [R1 R2]. split; [lia|]. split; [congruence|].
  split; [intros r; rewrite G; unfold gain; rewrite Eo; reflexivity|]. split; [congruence|].
  intros c x Hx. destruct (R2 c x Hx) as [r [H1 H2]]. exists r. split; [exact H1|]. apply py_nth_ok in H2; [exact H2|lia].
Qed.

(* ------------------------------------------------------------------ *)
(** ** All states, whoever holds what *)

(** A new row: every list grows by one cell for every column of every state that holds it. *)
Theorem C71_appends : forall ss rowid obs m m' rows, engine_row ss rowid obs m = (m', Ok rows) ->
  forall r, m' r = m r ++ flat_map (gain obs r) ss.
Proof.
  unfold engine_row. induction ss as [|s ss IH]; intros rowid obs m m' rows E r.
  - cbn in E. injection E as <- _. cbn. rewrite app_nil_r. reflexivity.
  - cbn [each] in E. destruct (hold_row s rowid obs m) as [m1 r1] eqn:E1. destruct r1 as [row|]; [|discriminate].
    destruct (each (fun s => hold_row s rowid obs) ss m1) as [m2 r2] eqn:E2. destruct r2 as [rows'|]; [|discriminate].
    cbn [rbind] in E. injection E as <- <-. destruct (hold_row_ok _ _ _ _ _ _ E1) as [_ [_ [G _]]].
    rewrite (IH _ _ _ _ _ E2 r), G. cbn [flat_map]. rewrite app_assoc. reflexivity.
Qed.
Print Assumptions C71_appends.

(** The row that the views of a state are told: at the position of the row in each list, as
    the states before it and itself have left that list. *)
Theorem C71_told : forall ss rowid obs m m' rows, engine_row ss rowid obs m = (m', Ok rows) ->
  length rows = length ss /\ forall i s row, nth_error ss i = Some s -> nth_error rows i = Some row ->
    map fst row = h_outs s /\ forall c x, In (c, x) row -> exists r, holds s c r /\
      nth_error (m r ++ flat_map (gain obs r) (firstn (S i) ss)) (Z.to_nat rowid) = Some x.
Proof.
  unfold engine_row. induction ss as [|s ss IH]; intros rowid obs m m' rows E.
  - cbn in E. injection E as _ <-. split; [reflexivity|]. intros [|i] ? ? F; discriminate F.
  - cbn [each] in E. destruct (hold_row s rowid obs m) as [m1 r1] eqn:E1. destruct r1 as [row|]; [|discriminate].
    destruct (each (fun s => hold_row s rowid obs) ss m1) as [m2 r2] eqn:E2. destruct r2 as [rows'|]; [|discriminate].
    cbn [rbind] in E. injection E as <- <-. destruct (hold_row_ok _ _ _ _ _ _ E1) as [_ [_ [G [R1 R2]]]].
    destruct (IH _ _ _ _ _ E2) as [L R]. split; [cbn [length]; rewrite L; reflexivity|]. intros [|i] s' row' Es Er.
    + cbn in Es, Er. injection Es as <-. injection Er as <-. split; [exact R1|]. intros c x Hx.
      destruct (R2 c x Hx) as [r [H1 H2]]. exists r. split; [exact H1|]. rewrite G in H2. cbn [firstn flat_map]. rewrite app_nil_r. exact H2.
    + cbn in Es, Er. destruct (R i s' row' Es Er) as [S1 S2]. split; [exact S1|]. intros c x Hx.
      destruct (S2 c x Hx) as [r [H1 H2]]. exists r. split; [exact H1|]. rewrite G, <- app_assoc in H2. exact H2.
Qed.
Print Assumptions C71_told.

(* ------------------------------------------------------------------ *)
(** ** No list is held twice *)

Lemma filter_single {A} (f : A -> bool) (a : A) : forall l, NoDup l -> In a l -> (forall b, In b l -> f b = true <-> b = a) -> filter f l = [a].
Proof.
  induction l as [|b l IH]; intros N H F; [contradiction|]. inversion N as [|? ? Nb Nl]; subst. cbn [filter].
  destruct (f b) eqn:E.
  - apply F in E; [|left; reflexivity]. subst b. f_equal.
    assert (Z : forall x, In x l -> f x = false).
    { intros x Hx. destruct (f x) eqn:Ex; [|reflexivity]. exfalso. apply F in Ex; [|right; exact Hx]. subst. contradiction. }
    clear - Z. induction l as [|x l IH]; [reflexivity|]. cbn [filter]. rewrite (Z x (or_introl eq_refl)). apply IH. intros y Hy. apply Z. right. exact Hy.
  - destruct H as [->|H]; [exfalso; rewrite (proj2 (F a (or_introl eq_refl)) eq_refl) in E; discriminate|].
    apply IH; [exact Nl|exact H|]. intros x Hx. apply F. right. exact Hx.
Qed.
Lemma at_holds s c r : In c (h_outs s) -> at_address s r c = true <-> holds s c r.
Proof.
  intros H. unfold at_address, holds. destruct (dget c (h_X s)) as [r'|].
  - split; [intros E; apply Nat.eqb_eq in E; subst; tauto|intros [_ E]; injection E as ->; apply Nat.eqb_refl].
  - split; [discriminate|intros [_ E]; discriminate].
Qed.
Lemma gain_none obs r s : (forall c, ~ holds s c r) -> gain obs r s = [].
Proof.
  intros H. unfold gain. replace (filter (at_address s r) (h_outs s)) with (@nil Z); [reflexivity|].
  assert (F : forall c, In c (h_outs s) -> at_address s r c = false).
  { intros c Hc. destruct (at_address s r c) eqn:E; [|reflexivity]. exfalso. apply (at_holds s c r Hc) in E. exact (H c E). }
  induction (h_outs s) as [|c l IH]; [reflexivity|]. cbn [filter]. rewrite (F c (or_introl eq_refl)). apply IH. intros d Hd. apply F. right. exact Hd.
Qed.
Lemma gain_one obs r s c : NoDup (h_outs s) -> holds s c r -> (forall d, holds s d r -> d = c) -> gain obs r s = [cell_for obs c].
Proof.
  intros N H U. unfold gain. rewrite (filter_single _ c); [reflexivity|exact N|apply H|].
  intros d Hd. rewrite (at_holds s d r Hd). split; [apply U|intros ->; exact H].
Qed.

Lemma apart_tail s ss : apart (s :: ss) -> apart ss.
Proof.
  intros A i j a b c d r Ha Hb H1 H2. destruct (A (S i) (S j) a b c d r Ha Hb H1 H2) as [E F]. split; [congruence|exact F].
Qed.
Lemma apart_head s ss s' c d r : apart (s :: ss) -> In s' ss -> holds s c r -> ~ holds s' d r.
Proof.
  intros A Hs H1 H2. apply In_nth_error in Hs. destruct Hs as [j Hj]. destruct (A 0 (S j) s s' c d r eq_refl Hj H1 H2) as [E _]. discriminate.
Qed.
Lemma apart_self s ss c d r : apart (s :: ss) -> holds s c r -> holds s d r -> c = d.
Proof. intros A H1 H2. exact (proj2 (A 0 0 s s c d r eq_refl eq_refl H1 H2)). Qed.

Lemma read_total m s rowid f : (forall c, In c (h_outs s) -> exists r, dget c (h_X s) = Some r /\ py_nth (m r) rowid = Ok (f c)) ->
  read_row m s rowid = Ok (map (fun c => (c, f c)) (h_outs s)).
Proof.
  intros H. unfold read_row. apply rsequence_ok. rewrite map_map. apply map_ext_in. intros c Hc.
  destruct (H c Hc) as [r [-> ->]]. reflexivity.
Qed.
Lemma hold_row_total s n obs m : proper s -> (forall c r, holds s c r -> length (m r) = n) ->
  (forall c d r, holds s c r -> holds s d r -> c = d) -> fits [s] obs ->
  exists m', hold_row s (Z.of_nat n) obs m = (m', Ok (row_for obs s)) /\ forall r, m' r = m r ++ gain obs r s.
Proof.
  intros [N [Ne P]] Sq U [F1 F2]. destruct (append_total (h_X s) obs (h_outs s) m P) as [m' E].
  pose proof (append_ok s obs _ _ _ E) as G. exists m'. split; [|exact G].
  assert (R : forall c, In c (h_outs s) -> exists r, dget c (h_X s) = Some r /\ m' r = m r ++ [cell_for obs c] /\ length (m r) = n).
  { intros c Hc. destruct (P c Hc) as [r Hr]. exists r. split; [exact Hr|]. assert (H : holds s c r) by (split; assumption).
    split; [|exact (Sq c r H)]. rewrite G. f_equal. exact (gain_one obs r s c N H (fun d Hd => U d c r Hd H)). }
  unfold hold_row. assert (HR : held_rows m s = Ok (Z.of_nat n) /\ held_rows m' s = Ok (Z.of_nat n + 1)%Z).
  { unfold held_rows. destruct (h_outs s) as [|c0 o]; [contradiction|]. destruct (R c0 (or_introl eq_refl)) as [r0 [-> [-> L]]].
    rewrite app_length, L. cbn [length]. split; [reflexivity|]. f_equal. lia. }
  destruct HR as [HR1 HR2]. rewrite HR1, Z.eqb_refl. cbn [negb].
  replace (forallb (fun c => zmem c (h_outs s)) (dkeys obs)) with true.
  2: { symmetry. apply forallb_forall. intros c Hc. apply zmem_in. apply (F1 s c (or_introl eq_refl) Hc). }
  cbn [negb]. replace (existsb (fun x : cell => match x with None => true | _ => false end) (dvals obs)) with false.
  2: { symmetry. apply Bool.not_true_iff_false. intros X. apply existsb_exists in X. destruct X as [x [Hx X]].
       destruct x; [discriminate|]. exact (F2 _ Hx eq_refl). }
  rewrite E, HR2. replace (hypothetical (Z.of_nat n + 1) (Z.of_nat n)) with false.
  2: { unfold hypothetical. symmetry. apply Bool.negb_false_iff, andb_true_intro. split; [apply Z.leb_le|apply Z.ltb_lt]; lia. }
  f_equal. unfold row_for. apply read_total. intros c Hc. destruct (R c Hc) as [r [H1 [H2 H3]]]. exists r. split; [exact H1|].
  apply py_nth_ok; [lia|]. rewrite Nat2Z.id, H2, nth_error_app2 by lia. rewrite H3, Nat.sub_diag. reflexivity.
Qed.

Lemma engine_row_apart : forall ss n obs m, Forall proper ss -> apart ss -> square m ss n -> fits ss obs ->
  exists m', engine_row ss (Z.of_nat n) obs m = (m', Ok (map (row_for obs) ss)) /\
    (forall s c r, In s ss -> holds s c r -> m' r = m r ++ [cell_for obs c]) /\
    (forall r, (forall s c, In s ss -> ~ holds s c r) -> m' r = m r).
Proof.
  unfold engine_row. induction ss as [|s ss IH]; intros n obs m P A Sq F.
  - exists m. split; [reflexivity|]. split; [intros s c r []|reflexivity].
  - inversion P as [|? ? P1 P2]; subst. destruct (hold_row_total s n obs m P1) as [m1 [E1 G1]].
    + intros c r. apply Sq. left. reflexivity.
    + intros c d r. apply (apart_self s ss c d r A).
    + destruct F as [F1 F2]. split; [|exact F2]. intros s' c [<-|[]]. apply F1. left. reflexivity.
    + destruct (IH n obs m1 P2 (apart_tail _ _ A)) as [m2 [E2 [G2 K2]]].
      * intros s' c r Hs H. rewrite G1, gain_none; [rewrite app_nil_r; apply (Sq s' c r); [right; exact Hs|exact H]|].
        intros d Hd. exact (apart_head s ss s' d c r A Hs Hd H).
      * destruct F as [F1 F2]. split; [|exact F2]. intros s' c Hs. apply F1. right. exact Hs.
      * exists m2. cbn [each]. rewrite E1, E2. split; [reflexivity|]. split.
        -- intros s' c r [<-|Hs] H.
           ++ rewrite K2, G1, (gain_one obs r s c); [reflexivity|apply P1|exact H|intros d Hd; exact (apart_self s ss d c r A Hd H)|].
              intros s' d Hs Hd. exact (apart_head s ss s' c d r A Hs H Hd).
           ++ rewrite (G2 s' c r Hs H), G1, gain_none; [rewrite app_nil_r; reflexivity|]. intros d Hd. exact (apart_head s ss s' d c r A Hs Hd H).
        -- intros r H. rewrite K2, G1, gain_none, app_nil_r; [reflexivity| |]; intros; apply H; [left; reflexivity|right; assumption].
Qed.

(** Any number of new rows: every state tells its views exactly the rows that were
    observed, every column ends with them in order, and no other list is touched. *)
Theorem C71_apart : forall obss ss n m, Forall proper ss -> apart ss -> square m ss n -> (forall obs, In obs obss -> fits ss obs) ->
  exists m', engine_rows ss (Z.of_nat n) obss m = (m', Ok (map (fun obs => map (row_for obs) ss) obss)) /\
    (forall s c r, In s ss -> holds s c r -> m' r = m r ++ map (fun obs => cell_for obs c) obss) /\
    (forall r, (forall s c, In s ss -> ~ holds s c r) -> m' r = m r).
Proof.
  induction obss as [|obs obss IH]; intros ss n m P A Sq F.
  - exists m. split; [reflexivity|]. split; [intros; rewrite app_nil_r; reflexivity|reflexivity].
  - destruct (engine_row_apart ss n obs m P A Sq (F obs (or_introl eq_refl))) as [m1 [E1 [G1 K1]]].
    destruct (IH ss (S n) m1 P A) as [m2 [E2 [G2 K2]]].
    + intros s c r Hs H. rewrite (G1 s c r Hs H), app_length, (Sq s c r Hs H). cbn [length]. lia.
    + intros o Ho. apply F. right. exact Ho.
    + exists m2. cbn [engine_rows]. rewrite E1. replace (Z.of_nat n + 1)%Z with (Z.of_nat (S n)) by lia. rewrite E2.
      split; [reflexivity|]. split.
      * intros s c r Hs H. rewrite (G2 s c r Hs H), (G1 s c r Hs H), <- app_assoc. reflexivity.
      * intros r H. rewrite (K2 r H). apply K1. exact H.
Qed.
Print Assumptions C71_apart.

(* ------------------------------------------------------------------ *)
(** ** Taking the last row away *)

Lemma pop_ok s : forall outs m m', pop_cells (h_X s) outs m = (m', Ok tt) ->
  forall r, exists lost, m r = m' r ++ lost /\ length lost = length (filter (at_address s r) outs).
Proof.
  induction outs as [|c outs IH]; intros m m' E r.
  - cbn in E. injection E as <-. exists []. rewrite app_nil_r. split; reflexivity.
  - cbn [pop_cells] in E. cbn [filter]. unfold at_address at 1. destruct (dget c (h_X s)) as [r0|]; [|discriminate].
    destruct (m r0) as [|x l] eqn:Em; [discriminate|]. destruct (IH _ _ E r) as [lost [H1 H2]]. unfold write in H1.
    rewrite (Nat.eqb_sym r0 r). destruct (Nat.eqb r r0) eqn:Er.
    + apply Nat.eqb_eq in Er. subst r0. exists (lost ++ [last (x :: l) None]). split; [|rewrite app_length, H2; cbn [length]; lia].
      rewrite Em, app_assoc, <- H1. apply app_removelast_last. discriminate.
    + exists lost. split; assumption.
Qed.
(** Every list loses one cell for every column of every state that holds it. *)
Theorem C71_drops : forall ss rowid m m' us, engine_drop ss rowid m = (m', Ok us) ->
  forall r, exists lost, m r = m' r ++ lost /\
    length lost = length (flat_map (fun s => filter (at_address s r) (h_outs s)) ss).
Proof.
  unfold engine_drop. induction ss as [|s ss IH]; intros rowid m m' us E r.
  - cbn in E. injection E as <- _. exists []. rewrite app_nil_r. split; reflexivity.
  - cbn [each] in E. destruct (drop_row s rowid m) as [m1 r1] eqn:E1. destruct r1 as [[]|]; [|discriminate].
    destruct (each (fun s => drop_row s rowid) ss m1) as [m2 r2] eqn:E2. destruct r2 as [us'|]; [|discriminate].
    cbn [rbind] in E. injection E as <- _. destruct (IH _ _ _ _ E2 r) as [l2 [H1 H2]].
    unfold drop_row in E1. destruct (held_rows m s) as [n|]; [|discriminate]. destruct (negb (rowid =? n - 1)%Z); [discriminate|].
    destruct (n =? 1)%Z; [discriminate|]. destruct (pop_ok _ _ _ _ E1 r) as [l1 [H3 H4]].
    exists (l2 ++ l1). split; [rewrite H3, H1, app_assoc; reflexivity|]. cbn [flat_map]. rewrite !app_length. lia.
Qed.
Print Assumptions C71_drops.

(* ------------------------------------------------------------------ *)
(** ** The same list in every state *)

(** A column given to an engine that works with [map]: every state holds the very list
    that was given. *)
Theorem C71_dim : forall ss t col m ss', engine_dim ss t col m = Ok ss' ->
  length ss' = length ss /\ forall i s s', nth_error ss i = Some s -> nth_error ss' i = Some s' ->
    holds s' col t /\ h_outs s' = h_outs s ++ [col] /\ forall c r, c <> col -> holds s' c r <-> holds s c r.
Proof.
  unfold engine_dim. intros ss t col m ss' E. apply rsequence_ok in E. split.
  { apply (f_equal (@length _)) in E. rewrite !map_length in E. congruence. }
  intros i s s' Es Es'. apply (f_equal (fun l => nth_error l i)) in E. rewrite !nth_error_map, Es, Es' in E. cbn [option_map] in E.
  injection E as E. unfold hold_dim in E. destruct (held_rows m s) as [n|]; [|discriminate]. cbn [rbind] in E.
  destruct (negb (Z.of_nat (length (m t)) =? n)%Z); [discriminate|]. destruct (zmem col (h_outs s)); [discriminate|]. injection E as <-.
  unfold holds. cbn [h_outs h_X]. split; [|split; [reflexivity|]].
  - split; [apply in_or_app; right; left; reflexivity|]. rewrite dget_dset, Z.eqb_refl. reflexivity.
  - intros c r Hc. rewrite dget_dset. replace (c =? col)%Z with false by (symmetry; apply Z.eqb_neq; exact Hc).
    rewrite in_app_iff. cbn [In]. split; [intros [[H|[H|[]]] H']; [tauto|congruence]|tauto].
Qed.
Print Assumptions C71_dim.

Lemma flat_map_same {A B} (f : A -> list B) (b : B) : forall l, (forall a, In a l -> f a = [b]) -> flat_map f l = repeat b (length l).
Proof.
  induction l as [|a l IH]; intros H; [reflexivity|]. cbn [flat_map length repeat]. rewrite (H a (or_introl eq_refl)), IH; [reflexivity|].
  intros x Hx. apply H. right. exact Hx.
Qed.
(** The first row after that makes the shared list longer by as many cells as there are
    states.  The second row is not what the views are told: all of them are told the cell
    of the first row again. *)
Theorem C71_shared : forall ss c t n obs1 obs2 m m1 m2 rows1 rows2, 2 <= length ss ->
  (forall s, In s ss -> NoDup (h_outs s) /\ holds s c t /\ forall d, holds s d t -> d = c) ->
  length (m t) = n ->
  engine_row ss (Z.of_nat n) obs1 m = (m1, Ok rows1) -> engine_row ss (Z.of_nat n + 1) obs2 m1 = (m2, Ok rows2) ->
  m1 t = m t ++ repeat (cell_for obs1 c) (length ss) /\
  m2 t = m1 t ++ repeat (cell_for obs2 c) (length ss) /\
  forall row x, In row rows2 -> In (c, x) row -> x = cell_for obs1 c.
Proof.
  intros ss c t n obs1 obs2 m m1 m2 rows1 rows2 L H Hn E1 E2.
  assert (G : forall obs s, In s ss -> gain obs t s = [cell_for obs c]).
  { intros obs s Hs. destruct (H s Hs) as [N [K U]]. exact (gain_one obs t s c N K U). }
  assert (M1 : m1 t = m t ++ repeat (cell_for obs1 c) (length ss)).
  { rewrite (C71_appends _ _ _ _ _ _ E1 t), (flat_map_same _ (cell_for obs1 c)); [reflexivity|apply G]. }
  split; [exact M1|]. split.
  { rewrite (C71_appends _ _ _ _ _ _ E2 t), (flat_map_same _ (cell_for obs2 c)); [reflexivity|apply G]. }
  intros row x Hr Hx. destruct (C71_told _ _ _ _ _ _ E2) as [Lr T]. apply In_nth_error in Hr. destruct Hr as [i Hi].
  assert (Hl : i < length ss) by (rewrite <- Lr; apply nth_error_Some; congruence).
  destruct (nth_error ss i) as [s|] eqn:Es; [|apply nth_error_None in Es; lia].
  destruct (T i s row Es Hi) as [_ T2]. destruct (T2 c x Hx) as [r [[H1 H2] H3]].
  destruct (H s (nth_error_In _ _ Es)) as [_ [[_ Kt] _]]. rewrite Kt in H2. injection H2 as <-.
  rewrite M1 in H3. replace (Z.to_nat (Z.of_nat n + 1)) with (S n) in H3 by lia.
  rewrite <- app_assoc, nth_error_app2 in H3 by lia. rewrite Hn in H3. replace (S n - n) with 1 in H3 by lia.
  destruct (length ss) as [|[|k]]; [lia|lia|]. cbn in H3. congruence.
Qed.
Print Assumptions C71_shared.

(* ------------------------------------------------------------------ *)
(** ** The data as values *)

(** What the columns of a state are worth. *)
Definition worth (m : memory) (X : dict nat) : dict (list cell) := map (fun cr => (fst cr, m (snd cr))) X.

Lemma worth_cons m d r X : worth m ((d, r) :: X) = (d, m r) :: worth m X.
Proof. reflexivity. Qed.
Lemma worth_get m c : forall X, dget c (worth m X) = option_map m (dget c X).
Proof. induction X as [|[d r] X IH]; [reflexivity|]. rewrite worth_cons. cbn [dget]. destruct (c =? d)%Z; [reflexivity|exact IH]. Qed.
Lemma worth_other m r l : forall X, ~ In r (dvals X) -> worth (write m r l) X = worth m X.
Proof.
  induction X as [|[d r'] X IH]; intros H; [reflexivity|]. cbn in H. rewrite !worth_cons. f_equal; [|apply IH; tauto].
  unfold write. destruct (Nat.eqb r' r) eqn:E; [apply Nat.eqb_eq in E; tauto|reflexivity].
Qed.
Lemma worth_write m c r l : forall X, NoDup (dvals X) -> dget c X = Some r ->
  worth (write m r l) X = dset c l (worth m X).
Proof.
  induction X as [|[d r'] X IH]; intros N E; [discriminate|]. cbn in N. inversion N as [|? ? Nr N']; subst.
  rewrite !worth_cons. cbn [dget dset] in E |- *. destruct (c =? d)%Z eqn:Ec.
  - injection E as ->. apply Z.eqb_eq in Ec. subst d. rewrite (worth_other m r l X Nr). unfold write. rewrite Nat.eqb_refl. reflexivity.
  - rewrite (IH N' E). f_equal. unfold write. destruct (Nat.eqb r' r) eqn:Er; [|reflexivity]. apply Nat.eqb_eq in Er. subst r'.
    exfalso. apply Nr. apply dget_In in E. apply in_map_iff. exists (c, r). split; [reflexivity|exact E].
Qed.
(** As long as a state holds no list for two columns, the three loops over the data do what
    they do to values: the model of states in State.v is right about them. *)
Theorem C71_values : forall X, NoDup (dvals X) ->
  (forall obs outs m m' r, append_cells X obs outs m = (m', r) -> append_row outs obs (worth m X) = (worth m' X, r)) /\
  (forall outs m m' r, pop_cells X outs m = (m', r) -> pop_row outs (worth m X) = (worth m' X, r)) /\
  (forall rowid obs m, set_cells rowid obs (worth m X) = worth (fill_cells X rowid obs m) X).
Proof.
  intros X N. split; [|split].
  - intros obs. induction outs as [|c outs IH]; intros m m' r E; [cbn in E |- *; congruence|].
    cbn [append_cells append_row] in *. rewrite worth_get. destruct (dget c X) as [r0|] eqn:Ec; cbn [option_map]; [|congruence].
    apply IH in E. rewrite (worth_write m c r0 _ X N Ec) in E. exact E.
  - induction outs as [|c outs IH]; intros m m' r E; [cbn in E |- *; congruence|].
    cbn [pop_cells pop_row] in *. rewrite worth_get. destruct (dget c X) as [r0|] eqn:Ec; cbn [option_map]; [|congruence].
    destruct (m r0) as [|x l]; [congruence|]. apply IH in E. rewrite (worth_write m c r0 _ X N Ec) in E. exact E.
  - intros rowid. induction obs as [|[c x] obs IH]; intros m; [reflexivity|]. cbn [set_cells fill_cells]. rewrite worth_get.
    destruct (dget c X) as [r0|] eqn:Ec; cbn [option_map]; [|apply IH]. rewrite <- IH, (worth_write m c r0 _ X N Ec). reflexivity.
Qed.
Print Assumptions C71_values.

(* ------------------------------------------------------------------ *)
(** ** Filling a cell that two states share *)

(** A cell is there and not missing. *)
Definition present (l : list cell) (i : Z) : Prop := exists y : R, py_nth l i = Ok (Some y).

Lemma fill_length X rowid : forall obs m r, length (fill_cells X rowid obs m r) = length (m r).
Proof.
  induction obs as [|[c x] obs IH]; intros m r; [reflexivity|]. cbn [fill_cells]. rewrite IH. destruct (dget c X) as [r0|]; [|reflexivity].
  unfold write. destruct (Nat.eqb r r0) eqn:E; [|reflexivity]. apply Nat.eqb_eq in E. subst. apply py_set_length.
Qed.
Lemma fill_present X rowid : (0 <= rowid)%Z -> forall obs m r, (forall x, In x (dvals obs) -> x <> None) ->
  (rowid < Z.of_nat (length (m r)))%Z ->
  present (m r) rowid \/ (exists c, In c (dkeys obs) /\ dget c X = Some r) -> present (fill_cells X rowid obs m r) rowid.
Proof.
  intros H0. induction obs as [|[c x] obs IH]; intros m r Hx Hl H.
  - destruct H as [H|[c [[] _]]]. exact H.
  - cbn [fill_cells]. assert (Hx' : forall y, In y (dvals obs) -> y <> None) by (intros y Hy; apply Hx; right; exact Hy).
    destruct x as [x|]; [|exfalso; exact (Hx None (or_introl eq_refl) eq_refl)].
    destruct (dget c X) as [r0|] eqn:Ec.
    + apply IH; [exact Hx'| |].
      * unfold write. destruct (Nat.eqb r r0) eqn:E; [apply Nat.eqb_eq in E; subst; rewrite py_set_length|]; exact Hl.
      * unfold write. destruct (Nat.eqb r r0) eqn:E.
        -- apply Nat.eqb_eq in E. subst r0. left. exists x. rewrite py_set_nth by lia. rewrite Z.eqb_refl. reflexivity.
        -- destruct H as [H|[d [[Hd|Hd] Er]]]; [left; exact H| |right; eauto]. cbn in Hd. subst d. rewrite Ec in Er. injection Er as <-.
           rewrite Nat.eqb_refl in E. discriminate.
    + apply IH; [exact Hx'|exact Hl|]. destruct H as [H|[d [[Hd|Hd] Er]]]; [left; exact H| |right; eauto]. cbn in Hd. subst d. congruence.
Qed.
Lemma py_nth_some {A} (l l' : list A) i x : length l' = length l -> py_nth l i = Ok x -> exists y, py_nth l' i = Ok y.
Proof.
  intros L E. unfold py_nth in *. rewrite L. destruct (0 <=? (if (i <? 0)%Z then (i + Z.of_nat (length l))%Z else i))%Z; [|discriminate].
  destruct (nth_error l _) as [a|] eqn:En in E; [|discriminate].
  destruct (nth_error l' _) as [b|] eqn:En'; [eauto|]. exfalso. apply nth_error_None in En'.
  assert (H := proj1 (nth_error_Some _ _) (ltac:(rewrite En; discriminate) : nth_error l (Z.to_nat (if (i <? 0)%Z then (i + Z.of_nat (length l))%Z else i)) <> None)). lia.
Qed.
Lemma all_empty_not X rowid m m' c r : (forall r, length (m' r) = length (m r)) -> dget c X = Some r -> present (m' r) rowid ->
  forall cols, In c cols -> all_empty m X rowid cols = Ok true -> all_empty m' X rowid cols = Ok false.
Proof.
  intros L Ec [y Hy]. induction cols as [|d cols IH]; intros Hc E; [contradiction|]. cbn [all_empty] in *.
  destruct (dget d X) as [r'|] eqn:Ed; [|discriminate]. destruct (py_nth (m r') rowid) as [x|] eqn:Ex; [|discriminate]. cbn [rbind] in E.
  destruct x; [discriminate|]. destruct (py_nth_some _ _ _ _ (L r') Ex) as [z Hz]. rewrite Hz. cbn [rbind].
  destruct z as [z|]; [reflexivity|]. apply IH; [|exact E]. destruct Hc as [->|Hc]; [|exact Hc]. rewrite Ec in Ed. injection Ed as <-.
  rewrite Hy in Hz. discriminate.
Qed.

(** Either state alone would take the cell.  One after the other they do not: the first
    takes it, the second refuses because the cell is no longer missing, and the engine is
    left with the first one changed. *)
Theorem C71_fill : forall s1 s2 ss c t rowid (obs : dict cell) m m1 m2, dget c (h_X s1) = Some t -> dget c (h_X s2) = Some t ->
  In c (dkeys obs) -> (forall x, In x (dvals obs) -> x <> None) ->
  fill_row s1 rowid obs m = (m1, Ok tt) -> fill_row s2 rowid obs m = (m2, Ok tt) ->
  engine_fill (s1 :: s2 :: ss) rowid obs m = (m1, Err ValueError) /\ py_nth (m t) rowid = Ok None /\ present (m1 t) rowid.
Proof.
  intros s1 s2 ss c t rowid obs m m1 m2 H1 H2 Hc Hx E1 E2. unfold engine_fill. cbn [each]. rewrite E1.
  unfold fill_row in E1, E2. destruct (held_rows m s1) as [n1|] eqn:R1; [|discriminate].
  destruct (hypothetical n1 rowid) eqn:Hy1; [discriminate|].
  destruct (all_empty m (h_X s1) rowid (dkeys obs)) as [[]|] eqn:A1; try discriminate. injection E1 as <-.
  destruct (held_rows m s2) as [n2|] eqn:R2; [|discriminate].
  destruct (hypothetical n2 rowid) eqn:Hy2; [discriminate|].
  destruct (all_empty m (h_X s2) rowid (dkeys obs)) as [[]|] eqn:A2; try discriminate. clear E2.
  assert (H0 : (0 <= rowid)%Z).
  { unfold hypothetical in Hy1. apply Bool.negb_false_iff, andb_prop in Hy1. destruct Hy1 as [Hy1 _]. apply Z.leb_le in Hy1. exact Hy1. }
  assert (Em : py_nth (m t) rowid = Ok None).
  { revert A1 Hc. generalize (dkeys obs). induction l as [|d l IH]; intros A1 Hc; [contradiction|]. cbn [all_empty] in A1.
    destruct (dget d (h_X s1)) as [r|] eqn:Ed; [|discriminate]. destruct (py_nth (m r) rowid) as [x|] eqn:Ex; [|discriminate]. cbn [rbind] in A1.
    destruct x; [discriminate|]. destruct Hc as [->|Hc]; [rewrite H1 in Ed; injection Ed as <-; exact Ex|]. apply IH; assumption. }
  assert (Lt : (rowid < Z.of_nat (length (m t)))%Z).
  { apply (py_nth_ok (m t) rowid None H0) in Em. assert (Z.to_nat rowid < length (m t)) by (apply nth_error_Some; congruence). lia. }
  assert (P : present (fill_cells (h_X s1) rowid obs m t) rowid).
  { apply (fill_present _ _ H0); [exact Hx|exact Lt|]. right. eauto. }
  split; [|split; [exact Em|exact P]].
  unfold fill_row. assert (R2' : held_rows (fill_cells (h_X s1) rowid obs m) s2 = Ok n2).
  { revert R2. unfold held_rows. destruct (h_outs s2) as [|c0 o]; [discriminate|]. destruct (dget c0 (h_X s2)); [|discriminate]. rewrite fill_length. tauto. }
  rewrite R2', Hy2. rewrite (all_empty_not (h_X s2) rowid m _ c t (fill_length (h_X s1) rowid obs m) H2 P _ Hc A2). reflexivity.
Qed.
Print Assumptions C71_fill.

(** The same for any call that changes the lists of its own state only. *)
Lemma each_apart {A} (op : holder -> memory -> memory * res A) (good : Z -> list cell -> Prop)
  (eff : Z -> list cell -> list cell) (answer : A) : forall ss m,
  (forall s m, In s ss -> (forall c r, holds s c r -> good c (m r)) -> (forall c d r, holds s c r -> holds s d r -> c = d) ->
     exists m', op s m = (m', Ok answer) /\ (forall c r, holds s c r -> m' r = eff c (m r)) /\
       forall r, (forall c, ~ holds s c r) -> m' r = m r) ->
  apart ss -> (forall s c r, In s ss -> holds s c r -> good c (m r)) ->
  exists m', each op ss m = (m', Ok (map (fun _ => answer) ss)) /\
    (forall s c r, In s ss -> holds s c r -> m' r = eff c (m r)) /\
    forall r, (forall s c, In s ss -> ~ holds s c r) -> m' r = m r.
Proof.
  induction ss as [|s ss IH]; intros m H A0 G.
  - exists m. split; [reflexivity|]. split; [intros s c r []|reflexivity].
  - destruct (H s m (or_introl eq_refl) (fun c r => G s c r (or_introl eq_refl)) (fun c d r => apart_self s ss c d r A0)) as [m1 [E1 [G1 K1]]].
    assert (O : forall s' c r, In s' ss -> holds s' c r -> m1 r = m r).
    { intros s' c r Hs Hr. apply K1. intros d Hd. exact (apart_head s ss s' d c r A0 Hs Hd Hr). }
    destruct (IH m1) as [m2 [E2 [G2 K2]]].
    + intros s' m' Hs. apply H. right. exact Hs.
    + exact (apart_tail _ _ A0).
    + intros s' c r Hs Hr. rewrite (O s' c r Hs Hr). apply (G s'); [right; exact Hs|exact Hr].
    + exists m2. cbn [each]. rewrite E1, E2. split; [reflexivity|]. split.
      * intros s' c r [<-|Hs] Hr.
        -- rewrite K2; [exact (G1 c r Hr)|]. intros s' d Hs Hd. exact (apart_head s ss s' c d r A0 Hs Hr Hd).
        -- rewrite (G2 s' c r Hs Hr), (O s' c r Hs Hr). reflexivity.
      * intros r Hr. rewrite K2, K1; [reflexivity| |]; intros; apply Hr; [left; reflexivity|right; assumption].
Qed.

Lemma pop_total X : forall outs m, NoDup outs -> (forall c, In c outs -> exists r, dget c X = Some r /\ m r <> []) ->
  (forall c d r, In c outs -> In d outs -> dget c X = Some r -> dget d X = Some r -> c = d) ->
  exists m', pop_cells X outs m = (m', Ok tt) /\
    (forall c r, In c outs -> dget c X = Some r -> m' r = removelast (m r)) /\
    forall r, (forall c, In c outs -> dget c X <> Some r) -> m' r = m r.
Proof.
  induction outs as [|c outs IH]; intros m N H U.
  - exists m. split; [reflexivity|]. split; [intros c r []|reflexivity].
  - inversion N as [|? ? Nc N']; subst. destruct (H c (or_introl eq_refl)) as [r0 [E0 M0]].
    assert (O : forall d r, In d outs -> dget d X = Some r -> r <> r0).
    { intros d r Hd Er ->. apply Nc. rewrite (U c d r0 (or_introl eq_refl) (or_intror Hd) E0 Er). exact Hd. }
    set (m1 := write m r0 (removelast (m r0))). assert (W : forall r, r <> r0 -> m1 r = m r).
    { intros r Hr. unfold m1, write. apply Nat.eqb_neq in Hr. rewrite Hr. reflexivity. }
    destruct (IH m1 N') as [m2 [E2 [G2 K2]]].
    + intros d Hd. destruct (H d (or_intror Hd)) as [r [Er Mr]]. exists r. split; [exact Er|]. rewrite (W r (O d r Hd Er)). exact Mr.
    + intros d e r Hd He. apply U; right; assumption.
    + exists m2. split; [|split].
      * cbn [pop_cells]. rewrite E0. destruct (m r0) as [|x l] eqn:Em; [contradiction|]. exact E2.
      * intros d r [<-|Hd] Er.
        -- rewrite E0 in Er. injection Er as <-. rewrite K2; [unfold m1, write; rewrite Nat.eqb_refl; reflexivity|].
           intros d Hd Er. exact (O d r0 Hd Er eq_refl).
        -- rewrite (G2 d r Hd Er), (W r (O d r Hd Er)). reflexivity.
      * intros r Hr. rewrite K2; [|intros d Hd; apply Hr; right; exact Hd]. apply W. intros ->. exact (Hr c (or_introl eq_refl) E0).
Qed.
(** Taking the last row away: every column loses exactly its last cell. *)
Theorem C71_dropped : forall ss n m, Forall proper ss -> apart ss -> square m ss (S n) -> 1 <= n ->
  exists m', engine_drop ss (Z.of_nat n) m = (m', Ok (map (fun _ => tt) ss)) /\
    (forall s c r, In s ss -> holds s c r -> m' r = removelast (m r)) /\
    (forall r, (forall s c, In s ss -> ~ holds s c r) -> m' r = m r).
Proof.
  intros ss n m P A Sq Hn. unfold engine_drop.
  apply (each_apart _ (fun _ l => length l = S n) (fun _ l => removelast l) tt ss m); [|exact A|exact Sq].
  intros s m0 Hs G U. rewrite Forall_forall in P. destruct (P s Hs) as [N [Ne Q]].
  destruct (pop_total (h_X s) (h_outs s) m0 N) as [m1 [E1 [G1 K1]]].
  - intros c Hc. destruct (Q c Hc) as [r Hr]. exists r. split; [exact Hr|]. intros E. specialize (G c r (conj Hc Hr)). rewrite E in G. discriminate.
  - intros c d r Hc Hd H1 H2. apply (U c d r); split; assumption.
  - exists m1. split; [|split; [intros c r [H1 H2]; exact (G1 c r H1 H2)|intros r Hr; apply K1; intros c Hc E; exact (Hr c (conj Hc E))]].
    unfold drop_row. assert (R : held_rows m0 s = Ok (Z.of_nat n + 1)%Z).
    { unfold held_rows. destruct (h_outs s) as [|c0 o] eqn:Eo; [contradiction|]. destruct (Q c0 (or_introl eq_refl)) as [r0 E0]. rewrite E0.
      f_equal. rewrite (G c0 r0); [lia|]. split; [rewrite Eo; left; reflexivity|exact E0]. }
    rewrite R. replace (Z.of_nat n + 1 - 1)%Z with (Z.of_nat n) by lia. rewrite Z.eqb_refl. cbn [negb].
    replace (Z.of_nat n + 1 =? 1)%Z with false by (symmetry; apply Z.eqb_neq; lia). exact E1.
Qed.
Print Assumptions C71_dropped.

Lemma fill_total X rowid : forall (obs : dict cell) m, NoDup (dkeys obs) ->
  (forall c d r, In c (dkeys obs) -> In d (dkeys obs) -> dget c X = Some r -> dget d X = Some r -> c = d) ->
  (forall c x r, dget c obs = Some x -> dget c X = Some r -> fill_cells X rowid obs m r = py_set (m r) rowid x) /\
  forall r, (forall c, In c (dkeys obs) -> dget c X <> Some r) -> fill_cells X rowid obs m r = m r.
Proof.
  induction obs as [|[c0 x0] obs IH]; intros m N U.
  - split; [intros c x r E; discriminate|reflexivity].
  - cbn in N. inversion N as [|? ? Nc N']; subst. cbn [fill_cells].
    set (m1 := match dget c0 X with Some r => write m r (py_set (m r) rowid x0) | None => m end).
    destruct (IH m1 N') as [I1 I2]; [intros c d r Hc Hd; apply U; right; assumption|].
    assert (W : forall r, dget c0 X <> Some r -> m1 r = m r).
    { intros r Hr. unfold m1. destruct (dget c0 X) as [r0|]; [|reflexivity]. unfold write. destruct (Nat.eqb r r0) eqn:E; [|reflexivity].
      apply Nat.eqb_eq in E. subst. exfalso. apply Hr. reflexivity. }
    split.
    + intros c x r E Er. cbn [dget] in E. destruct (c =? c0)%Z eqn:Ec.
      * injection E as <-. apply Z.eqb_eq in Ec. subst c0. rewrite I2.
        -- unfold m1. rewrite Er. unfold write. rewrite Nat.eqb_refl. reflexivity.
        -- intros d Hd Ed. apply Nc. rewrite (U c d r (or_introl eq_refl) (or_intror Hd) Er Ed). exact Hd.
      * rewrite (I1 c x r E Er), W; [reflexivity|]. intros E0. apply Z.eqb_neq in Ec. apply Ec.
        apply (U c c0 r); [right; apply dget_In in E; apply in_map_iff; exists (c, x); split; [reflexivity|exact E]|left; reflexivity|exact Er|exact E0].
    + intros r Hr. rewrite I2; [|intros c Hc; apply Hr; right; exact Hc]. apply W. apply Hr. left. reflexivity.
Qed.
Lemma all_empty_true (m : memory) X rowid : forall cols, (forall c, In c cols -> exists r, dget c X = Some r /\ py_nth (m r) rowid = Ok None) ->
  all_empty m X rowid cols = Ok true.
Proof.
  induction cols as [|c cols IH]; intros H; [reflexivity|]. cbn [all_empty]. destruct (H c (or_introl eq_refl)) as [r [-> ->]]. cbn [rbind].
  apply IH. intros d Hd. apply H. right. exact Hd.
Qed.
(** Filling missing cells of a row: exactly those cells change. *)
Theorem C71_filled : forall ss n rowid (obs : dict cell) m, Forall proper ss -> apart ss -> square m ss n ->
  (0 <= rowid < Z.of_nat n)%Z -> NoDup (dkeys obs) ->
  (forall s c, In s ss -> In c (dkeys obs) -> exists r, holds s c r /\ py_nth (m r) rowid = Ok None) ->
  exists m', engine_fill ss rowid obs m = (m', Ok (map (fun _ => tt) ss)) /\
    (forall s c r i, In s ss -> holds s c r -> (0 <= i)%Z ->
       py_nth (m' r) i = match dget c obs with Some x => if (i =? rowid)%Z then Ok x else py_nth (m r) i | None => py_nth (m r) i end) /\
    (forall r, (forall s c, In s ss -> ~ holds s c r) -> m' r = m r).
Proof.
  intros ss n rowid obs m P A Sq Hr N H. unfold engine_fill.
  destruct (each_apart (fun s => fill_row s rowid obs)
    (fun c l => length l = n /\ (In c (dkeys obs) -> py_nth l rowid = Ok None))
    (fun c l => match dget c obs with Some x => py_set l rowid x | None => l end) tt ss m) as [m' [E [G K]]].
  - intros s m0 Hs G U. rewrite Forall_forall in P. destruct (P s Hs) as [Ns [Ne Q]].
    assert (Hk : forall c, In c (dkeys obs) -> exists r, holds s c r).
    { intros c Hc. destruct (H s c Hs Hc) as [r [Hr' _]]. eauto. }
    destruct (fill_total (h_X s) rowid obs m0 N) as [F1 F2].
    { intros c d r Hc Hd H1 H2. apply (U c d r); (split; [|assumption]); [destruct (Hk c Hc) as [? [? _]]|destruct (Hk d Hd) as [? [? _]]]; assumption. }
    exists (fill_cells (h_X s) rowid obs m0). split; [|split].
    + unfold fill_row. assert (R : held_rows m0 s = Ok (Z.of_nat n)).
      { unfold held_rows. destruct (h_outs s) as [|c0 o] eqn:Eo; [contradiction|]. destruct (Q c0 (or_introl eq_refl)) as [r0 E0]. rewrite E0.
        f_equal. f_equal. apply (G c0 r0). split; [rewrite Eo; left; reflexivity|exact E0]. }
      rewrite R. replace (hypothetical (Z.of_nat n) rowid) with false.
      2: { unfold hypothetical. symmetry. apply Bool.negb_false_iff, andb_true_intro. split; [apply Z.leb_le|apply Z.ltb_lt]; lia. }
      rewrite all_empty_true; [reflexivity|]. intros c Hc. destruct (Hk c Hc) as [r Hr']. exists r. split; [apply Hr'|]. exact (proj2 (G c r Hr') Hc).
    + intros c r Hh. destruct (dget c obs) as [x|] eqn:Ex; [exact (F1 c x r Ex (proj2 Hh))|]. apply F2. intros d Hd Ed.
      destruct (Hk d Hd) as [r' Hr']. assert (d = c) as -> by (apply (U d c r); [split; [apply Hr'|exact Ed]|exact Hh]).
      apply dget_None_notin in Ex. exact (Ex Hd).
    + intros r Hn. apply F2. intros c Hc Ec. destruct (Hk c Hc) as [r' [Ho _]]. exact (Hn c (conj Ho Ec)).
  - exact A.
  - intros s c r Hs Hh. split; [exact (Sq s c r Hs Hh)|]. intros Hc. destruct (H s c Hs Hc) as [r' [[_ E] Em]]. destruct Hh as [_ E'].
    rewrite E in E'. injection E' as <-. exact Em.
  - exists m'. split; [exact E|]. split; [|exact K]. intros s c r i Hs Hh Hi. rewrite (G s c r Hs Hh).
    destruct (dget c obs) as [x|]; [|reflexivity]. apply py_set_nth; [|exact Hi]. rewrite (Sq s c r Hs Hh). exact Hr.
Qed.
Print Assumptions C71_filled.

(** What is refused, without touching any list. *)
Theorem C71_refused : forall s m n, held_rows m s = Ok n ->
  (forall rowid (obs : dict cell), rowid <> n \/ (exists c, In c (dkeys obs) /\ ~ In c (h_outs s)) \/ In None (dvals obs) ->
     hold_row s rowid obs m = (m, Err ValueError)) /\
  (forall rowid, rowid <> (n - 1)%Z \/ n = 1%Z -> drop_row s rowid m = (m, Err ValueError)) /\
  (forall rowid obs, ~ (0 <= rowid < n)%Z -> fill_row s rowid obs m = (m, Err ValueError)) /\
  (forall t col, Z.of_nat (length (m t)) <> n \/ In col (h_outs s) -> hold_dim m s t col = Err ValueError).
Proof.
  intros s m n R. split; [|split; [|split]].
  - intros rowid obs H. unfold hold_row. rewrite R. destruct (rowid =? n)%Z eqn:E; [|reflexivity]. apply Z.eqb_eq in E. cbn [negb].
    destruct (forallb (fun c => zmem c (h_outs s)) (dkeys obs)) eqn:F; [|reflexivity]. cbn [negb].
    destruct (existsb (fun x : cell => match x with None => true | _ => false end) (dvals obs)) eqn:X; [reflexivity|]. exfalso.
    destruct H as [H|[[c [H1 H2]]|H]]; [exact (H E)| |].
    + rewrite forallb_forall in F. apply F in H1. apply zmem_in in H1. exact (H2 H1).
    + apply Bool.not_true_iff_false in X. apply X. apply existsb_exists. exists None. split; [exact H|reflexivity].
  - intros rowid H. unfold drop_row. rewrite R. destruct (rowid =? n - 1)%Z eqn:E; [|reflexivity]. apply Z.eqb_eq in E. cbn [negb].
    destruct (n =? 1)%Z eqn:F; [reflexivity|]. apply Z.eqb_neq in F. exfalso. destruct H as [H|H]; [exact (H E)|exact (F H)].
  - intros rowid obs H. unfold fill_row. rewrite R. replace (hypothetical n rowid) with true; [reflexivity|].
    unfold hypothetical. symmetry. apply Bool.negb_true_iff, Bool.not_true_iff_false. intros E. apply andb_prop in E. destruct E as [E1 E2].
    apply Z.leb_le in E1. apply Z.ltb_lt in E2. lia.
  - intros t col H. unfold hold_dim. rewrite R. cbn [rbind]. destruct (Z.of_nat (length (m t)) =? n)%Z eqn:E; [|reflexivity]. cbn [negb].
    apply Z.eqb_eq in E. destruct H as [H|H]; [contradiction|]. apply zmem_in in H. rewrite H. reflexivity.
Qed.
Print Assumptions C71_refused.

(* ------------------------------------------------------------------ *)
(** ** Witnesses *)

(** Two states of one column and one row each, in lists of their own; the list at 2 is
    given to the engine as a new column. *)
Definition sh_m : memory := fun r => [Some (INR r)].
Definition sh_ss : list holder := [Holder [0%Z] [(0%Z, 0)]; Holder [0%Z] [(0%Z, 1)]].
Definition sh_ss' : list holder := [Holder [0; 7]%Z [(0%Z, 0); (7%Z, 2)]; Holder [0; 7]%Z [(0%Z, 1); (7%Z, 2)]].
Definition sh_obs (x : R) : dict cell := [(7%Z, Some x); (0%Z, Some 5%R)].

Lemma sh_proper : Forall proper sh_ss.
Proof.
  repeat constructor; cbn [h_outs h_X]; try (intros []; fail); try discriminate; intros c [<-|[]]; eexists; reflexivity.
Qed.
Lemma sh_apart : apart sh_ss.
Proof.
  intros i j s s' c d r Hi Hj [H1 H2] [H3 H4].
  destruct i as [|[|[|i]]]; cbn in Hi; try discriminate; injection Hi as <-;
  destruct j as [|[|[|j]]]; cbn in Hj; try discriminate; injection Hj as <-;
  cbn [h_outs h_X In] in *; destruct H1 as [<-|[]]; destruct H3 as [<-|[]]; cbn in H2, H4; split; congruence.
Qed.
Lemma sh_square : square sh_m sh_ss 1.
Proof. intros s c r _ _. reflexivity. Qed.
Lemma sh_dim : engine_dim sh_ss 2 7 sh_m = Ok sh_ss'.
Proof. reflexivity. Qed.
Lemma sh_fits x : fits sh_ss' (sh_obs x).
Proof. split; [intros s c [<-|[<-|[]]] H; cbn in *; tauto|]. intros y [<-|[<-|[]]]; discriminate. Qed.

(** The engine adds a column, then two rows; nothing is refused, and the second row that
    the views of both states are told is not the one observed. *)
Theorem C71_shared_refuted : exists ss t col m n ss' obs1 obs2 m' told,
  Forall proper ss /\ apart ss /\ square m ss n /\ (forall s c, In s ss -> ~ holds s c t) /\
  engine_dim ss t col m = Ok ss' /\ square m ss' n /\ fits ss' obs1 /\ fits ss' obs2 /\
  engine_rows ss' (Z.of_nat n) [obs1; obs2] m = (m', Ok told) /\
  told <> map (fun obs => map (row_for obs) ss') [obs1; obs2] /\ ~ square m' ss' (n + 2).
Proof.
  assert (R : exists m', engine_rows sh_ss' 1 [sh_obs 1; sh_obs 2] sh_m =
    (m', Ok [map (row_for (sh_obs 1)) sh_ss'; map (row_for (sh_obs 1)) sh_ss']) /\ length (m' 2) = 5).
  { eexists. split; [reflexivity|reflexivity]. }
  destruct R as [m' [R L]].
  exists sh_ss, 2, 7%Z, sh_m, 1, sh_ss', (sh_obs 1), (sh_obs 2), m', [map (row_for (sh_obs 1)) sh_ss'; map (row_for (sh_obs 1)) sh_ss'].
  split; [exact sh_proper|]. split; [exact sh_apart|]. split; [exact sh_square|].
  split; [intros s c [<-|[<-|[]]] [[<-|[]] E]; discriminate|]. split; [exact sh_dim|].
  split; [intros s c r _ _; reflexivity|]. split; [apply sh_fits|]. split; [apply sh_fits|]. split; [exact R|]. split.
  - intros E. cbn in E. injection E. intros. lra.
  - intros S. specialize (S (Holder [0; 7]%Z [(0%Z, 0); (7%Z, 2)]) 7%Z 2 (or_introl eq_refl)). rewrite L in S.
    assert (5 = 3) by (apply S; split; [right; left; reflexivity|reflexivity]). discriminate.
Qed.
Print Assumptions C71_shared_refuted.

(** The premises can be met. *)
Example C71_apart_ex : Forall proper sh_ss /\ apart sh_ss /\ square sh_m sh_ss 1 /\ fits sh_ss [(0%Z, Some 5%R)].
Proof.
  split; [exact sh_proper|]. split; [exact sh_apart|]. split; [exact sh_square|].
  split; [intros s c [<-|[<-|[]]] H; cbn in *; tauto|]. intros y [<-|[]]; discriminate.
Qed.
Example C71_dropped_ex : square (fun r => [Some 1%R; Some (INR r)]) sh_ss 2.
Proof. intros s c r _ _. reflexivity. Qed.
Example C71_filled_ex : let m := fun _ : nat => [Some 1%R; None] in square m sh_ss 2 /\ NoDup (dkeys [(0%Z, Some 3%R)]) /\
  forall s c, In s sh_ss -> In c (dkeys [(0%Z, Some 3%R)]) -> exists r, holds s c r /\ py_nth (m r) 1 = Ok None.
Proof.
  split; [intros s c r _ _; reflexivity|]. split; [repeat constructor; intros []|].
  intros s c [<-|[<-|[]]] [<-|[]]; (eexists; split; [split; [left; reflexivity|reflexivity]|reflexivity]).
Qed.
Example C71_refused_ex : held_rows sh_m (Holder [0%Z] [(0%Z, 0)]) = Ok 1%Z.
Proof. reflexivity. Qed.
Example C71_told_ex : exists m', engine_row sh_ss' 1 (sh_obs 1) sh_m = (m', Ok (map (row_for (sh_obs 1)) sh_ss')) /\
  m' 2 = [Some (INR 2); Some 1%R; Some 1%R].
Proof. eexists. split; reflexivity. Qed.
Example C71_drops_ex : exists m' us, engine_drop sh_ss' 2 (fun r => [Some 1%R; Some 2%R; Some (INR r)]) = (m', Ok us) /\
  m' 0 = [Some 1%R; Some 2%R] /\ m' 2 = [Some 1%R].
Proof. eexists _, _. split; [reflexivity|split; reflexivity]. Qed.
Example C71_shared_ex : 2 <= length sh_ss' /\
  (forall s, In s sh_ss' -> NoDup (h_outs s) /\ holds s 7 2 /\ forall d, holds s d 2 -> d = 7%Z) /\ length (sh_m 2) = 1.
Proof.
  split; [cbn; lia|]. split; [|reflexivity].
  intros s [<-|[<-|[]]]; (split; [repeat constructor; cbn; intuition discriminate|]); (split; [split; [cbn; tauto|reflexivity]|]);
    intros d [[<-|[<-|[]]] E]; cbn in E; congruence.
Qed.
Example C71_values_ex : NoDup (dvals (h_X (Holder [0; 7]%Z [(0%Z, 0); (7%Z, 2)]))).
Proof. repeat constructor; cbn; intuition discriminate. Qed.
Example C71_fill_ex : exists m1 m2, let m := fun _ : nat => [Some 1%R; None] in
  fill_row (Holder [0; 7]%Z [(0%Z, 0); (7%Z, 2)]) 1 [(7%Z, Some 3%R)] m = (m1, Ok tt) /\
  fill_row (Holder [0; 7]%Z [(0%Z, 1); (7%Z, 2)]) 1 [(7%Z, Some 3%R)] m = (m2, Ok tt).
Proof. eexists _, _. split; reflexivity. Qed.
