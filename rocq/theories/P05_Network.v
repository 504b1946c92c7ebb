(** Properties C17-C21: composite networks. *)
From Verif Require Import ImportanceLaw P02_LogSpace.
From Coq Require Import Relations.
Local Open Scope Z_scope.

(* ================================================================== *)
(** * C17: topological sort *)

(** [n] depends on [p], both nodes of the graph. *)
Definition depends (g : dict (list Z)) (n p : Z) : Prop :=
  exists e, dget n g = Some e /\ In p e /\ In p (dkeys g).
Definition has_cycle (g : dict (list Z)) : Prop := exists n, clos_trans Z (depends g) n n.

Lemma path_clos g a b : path g a b <-> clos_trans Z (depends g) a b.
Proof.
  split.
  - induction 1 as [n p e Hn Hp Hk|n p q e Hn Hp Hq IH].
    + apply t_step. exists e; auto.
    + eapply t_trans; [apply t_step; exists e; split; [exact Hn|split; [exact Hp|eapply path_head_key; exact Hq]]|exact IH].
  - induction 1 as [a b [e [H1 [H2 H3]]]|a b c _ IH1 _ IH2]; [eapply path_one; eauto|eapply path_trans; eauto].
Qed.

(** Exactly the graphs with a cycle raise; otherwise the result lists every
    node once, after all the nodes it depends on.  Dependencies that are not
    nodes are ignored. *)
Theorem C17_topological_sort : forall g, NoDup (dkeys g) ->
  (has_cycle g /\ topological_sort g = Err ValueError) \/
  (~ has_cycle g /\ exists order, topological_sort g = Ok order /\ Permutation order (dkeys g) /\
     forall n p, depends g n p -> exists l1 l2 l3, order = l1 ++ p :: l2 ++ n :: l3).
Proof.
  intros g Hnd. destruct (topological_sort_spec g Hnd) as [[order [E [[_ [_ [HP HB]]] Hc]]]|[E [n Hn]]].
  - right. split; [intros [n Hn]; apply path_clos in Hn; apply (Hc n Hn)|]. exists order. split; [exact E|].
    simpl in HP. rewrite app_nil_r in HP. split; [exact HP|]. intros n p [e [He [Hp Hk]]].
    destruct (HB n e p) as [l1 [l2 [-> Hin]]]; auto.
    + apply (Permutation_in n (Permutation_sym HP)). eapply dget_Some_in; eauto.
    + apply in_split in Hin. destruct Hin as [a [b ->]]. exists a, b, l2. rewrite <- app_assoc. reflexivity.
  - left. split; [|exact E]. exists n. apply path_clos. exact Hn.
Qed.
Print Assumptions C17_topological_sort.

Example C17_sort_ex : let g := [(0, [2; 7]); (1, [0]); (2, []); (3, [1; 2])] in
  NoDup (dkeys g) /\ depends g 3 1 /\ topological_sort g = Ok [2; 0; 1; 3] /\
  topological_sort [(0, [1]); (1, [0]); (2, [])] = Err ValueError /\
  topological_sort [(5, [5])] = Err ValueError.
Proof.
  simpl. split; [repeat constructor; simpl; intuition discriminate|]. split.
  - exists [1; 2]. simpl. auto.
  - repeat split.
Qed.

(** A network is accepted exactly when every component has an output, no
    variable has two producers and no variable depends on itself. *)
Theorem C17_network_accepted : forall cgpms,
  (exists topo, network_init cgpms = Ok topo) <->
  (forall c, In c cgpms -> g_outputs c <> []) /\
  (forall i j v, output_of cgpms i v -> output_of cgpms j v -> i = j) /\
  (forall v, ~ clos_trans Z (parent cgpms) v v).
Proof.
  intros cgpms. unfold network_init. destruct (validate_cgpms cgpms) as [[]|e] eqn:E; simpl.
  - apply validate_cgpms_ok in E. destruct E as [H1 H2]. rewrite (sort_acyclic cgpms H2 H1). unfold acyclic, reaches.
    split; [auto|]. intros [_ [_ H]]. exact H.
  - split; [intros [t H]; discriminate|]. intros [H1 [H2 _]].
    rewrite (proj2 (validate_cgpms_ok cgpms) (conj H1 H2)) in E. discriminate.
Qed.
Print Assumptions C17_network_accepted.

(** A rejected network raises ValueError. *)
Theorem C17_network_rejected : forall cgpms e, network_init cgpms = Err e -> e = ValueError.
Proof.
  intros cgpms e. unfold network_init. destruct (validate_cgpms cgpms) as [u|x] eqn:E; simpl.
  - assert (Hnd : NoDup (dkeys (adjacency_list cgpms (variable_to_cgpm cgpms))))
      by (rewrite dkeys_adjacency; apply NoDup_indices).
    destruct (C17_topological_sort _ Hnd) as [[_ H]|[_ [o [H _]]]]; rewrite H; congruence.
  - unfold validate_cgpms in E. destruct (negb _); [congruence|]. destruct (negb _); congruence.
Qed.
Print Assumptions C17_network_rejected.

(** A network used in the examples: component 0 outputs variable 10, component
    1 outputs 11 and 12 from 10 and the extraneous input 99, component 2
    outputs 13 from 12. *)
Definition ex_net : list sig := [Sig [13] [12]; Sig [11; 12] [10; 99]; Sig [10] []].
Example C17_network_ex : network_init ex_net = Ok [2; 1; 0] /\
  network_init [Sig [1] [2]; Sig [2] [1]] = Err ValueError /\
  network_init [Sig [1] []; Sig [2; 1] []] = Err ValueError.
Proof. repeat split. Qed.

(* ================================================================== *)
(** * C18: ancestors, descendants, required inputs *)

(** On every accepted network, any sufficient recursion depth gives exactly the
    variables reachable through one or more parent (child) steps. *)
Theorem C18_ancestors : forall cgpms topo, network_init cgpms = Ok topo ->
  forall q fuel, (length cgpms < fuel)%nat ->
  (forall i, output_of cgpms i q ->
    exists l, retrieve_ancestors fuel cgpms q = Ok l /\
      forall a, In a l <-> clos_trans Z (parent cgpms) q a) /\
  ((forall i, ~ output_of cgpms i q) -> retrieve_ancestors fuel cgpms q = Err ValueError).
Proof.
  intros cgpms topo H q fuel Hf. destruct (network_init_ok _ _ H) as [Hd Hg]. unfold retrieve_ancestors. split.
  - intros i Hi. apply (variable_to_cgpm_get cgpms Hd) in Hi.
    rewrite (proj2 (dmem_in q _) (dget_Some_in _ _ _ Hi)). apply (ancestors_spec cgpms topo q fuel Hd Hg Hf).
  - intros Hn. destruct (dmem q (variable_to_cgpm cgpms)) eqn:E; [|reflexivity].
    apply dmem_in, in_dkeys_Some in E. destruct E as [i Hi]. apply (variable_to_cgpm_get cgpms Hd) in Hi.
    exfalso. apply (Hn i Hi).
Qed.
Print Assumptions C18_ancestors.

Theorem C18_descendents : forall cgpms topo, network_init cgpms = Ok topo ->
  forall q fuel, (length cgpms < fuel)%nat ->
  (forall i, output_of cgpms i q ->
    exists l, retrieve_descendents fuel cgpms q = Ok l /\
      forall a, In a l <-> clos_trans Z (parent cgpms) a q) /\
  ((forall i, ~ output_of cgpms i q) -> retrieve_descendents fuel cgpms q = Err ValueError).
Proof.
  intros cgpms topo H q fuel Hf. destruct (network_init_ok _ _ H) as [Hd Hg]. unfold retrieve_descendents. split.
  - intros i Hi. apply (variable_to_cgpm_get cgpms Hd) in Hi.
    rewrite (proj2 (dmem_in q _) (dget_Some_in _ _ _ Hi)). apply (descendents_spec cgpms topo q fuel Hd Hg Hf).
  - intros Hn. destruct (dmem q (variable_to_cgpm cgpms)) eqn:E; [|reflexivity].
    apply dmem_in, in_dkeys_Some in E. destruct E as [i Hi]. apply (variable_to_cgpm_get cgpms Hd) in Hi.
    exfalso. apply (Hn i Hi).
Qed.
Print Assumptions C18_descendents.

(** Exactly the variables that the targets and the constrained components need
    (least set closed under "inputs of a component with a needed or constrained
    output") and that are neither targets, nor given, nor produced by nobody. *)
Theorem C18_required_inputs : forall cgpms topo, network_init cgpms = Ok topo ->
  forall targets constraints,
  let required := required_inputs cgpms topo targets constraints
                    (extraneous_inputs cgpms (variable_to_cgpm cgpms)) in
  NoDup required /\
  forall x, In x required <->
    needed cgpms targets constraints x /\ ~ In x targets /\ ~ In x constraints /\
    exists i, output_of cgpms i x.
Proof.
  intros cgpms topo H targets constraints. destruct (network_init_ok _ _ H) as [Hd Hg].
  destruct (required_spec cgpms topo targets constraints Hg (extraneous_inputs cgpms (variable_to_cgpm cgpms)))
    as [Hn Hr]. split; [exact Hn|]. intros x. rewrite Hr. split.
  - intros [H1 [H2 [H3 H4]]]. repeat split; auto.
    destruct (dget x (variable_to_cgpm cgpms)) as [i|] eqn:E; [exists i; apply variable_to_cgpm_get; assumption|].
    exfalso. destruct H1 as [t Ht|c o i Hc Ho Hno Hi]; [contradiction|]. apply H4. unfold extraneous_inputs.
    apply in_concat. eexists. split; [apply in_map; exact Hc|]. apply filter_In. split; [exact Hi|].
    apply negb_true_iff, dmem_false. intros Hk. apply in_dkeys_Some in Hk. destruct Hk as [v Hv]. congruence.
  - intros [H1 [H2 [H3 H4]]]. repeat split; auto. intros He. apply (extraneous_in cgpms Hd x He H4).
Qed.
Print Assumptions C18_required_inputs.

Example C18_ex :
  retrieve_ancestors 4 ex_net 13 = Ok [10; 99; 12] /\
  retrieve_descendents 4 ex_net 10 = Ok [13; 11; 12] /\
  retrieve_ancestors 4 ex_net 99 = Err ValueError /\
  required_inputs ex_net [2; 1; 0] [13] [11] (extraneous_inputs ex_net (variable_to_cgpm ex_net)) = [12; 10] /\
  needed ex_net [13] [11] 10.
Proof.
  repeat split; try reflexivity.
  apply (need_input _ _ _ (Sig [11; 12] [10; 99]) 11 10); simpl; auto.
Qed.

(* ================================================================== *)
(** * C19: weighted samples *)

(** Every component returns its targets, if it returns. *)
Definition returns_targets {V} (sim : Z -> list Z -> dict V -> dict V -> res (dict V)) : Prop :=
  forall l T c i s, sim l T c i = Ok s -> NoDup (dkeys s) /\ forall k, In k (dkeys s) <-> In k T.

(** The value of a variable an input is read from: the sample if it is there,
    the given inputs otherwise. *)
Definition seen {V} (final inputs : dict V) (k : Z) : option V :=
  match dget k final with Some v => Some v | None => dget k inputs end.

(** Contribution of component [l] to the weight: log density of its constrained
    outputs given its inputs as they are in the final sample; zero if nothing is
    constrained. *)
Definition contribution {V} (cgpms : list sig) (lp : Z -> dict V -> dict V -> res ext)
  (constraints inputs final : dict V) (l : Z) (w : ext) : Prop :=
  exists evidence given,
    (forall k v, In (k, v) evidence <-> In k (g_outputs (sig_at cgpms l)) /\ dget k constraints = Some v) /\
    ((evidence = [] /\ w = Fin 0) \/
     (evidence <> [] /\ lp l evidence given = Ok w /\
      (forall k v, dget k given = Some v <-> In k (g_inputs (sig_at cgpms l)) /\ seen final inputs k = Some v) /\
      (forall i, In i (g_inputs (sig_at cgpms l)) -> exists v, dget i given = Some v))).

Lemma Forall2_weaken {A B} (P Q : A -> B -> Prop) l1 l2 : (forall a b, P a b -> Q a b) -> Forall2 P l1 l2 -> Forall2 Q l1 l2.
Proof. intros H. induction 1; constructor; auto. Qed.

Theorem C19_weighted_sample :
  forall (V : Type) cgpms topo (lp : Z -> dict V -> dict V -> res ext) sim targets constraints inputs,
  network_init cgpms = Ok topo ->
  admissible cgpms targets constraints inputs ->
  returns_targets sim ->
  match weighted_sample id_ret id_bind cgpms topo lp sim targets constraints inputs with
  | Ok (sample, w) =>
      NoDup (dkeys sample) /\
      (forall k v, dget k constraints = Some v -> dget k sample = Some v) /\
      (forall t, In t targets -> exists v, dget t sample = Some v) /\
      (forall k, In k (dkeys sample) <->
         In k (dkeys constraints) \/
         (needed cgpms targets (dkeys constraints) k /\ exists i, output_of cgpms i k)) /\
      exists ws, w = esum ws /\ Forall2 (contribution cgpms lp constraints inputs sample) topo ws
  | Err e =>
      (* only an invoked component raises, and it has all its inputs *)
      exists l evidence want given, In l topo /\
        (forall i, In i (g_inputs (sig_at cgpms l)) -> exists v, dget i given = Some v) /\
        (lp l evidence given = Err e \/ sim l want evidence given = Err e)
  end.
Proof.
  intros V cgpms topo lp sim targets constraints inputs H Had Hsim. destruct (network_init_ok _ _ H) as [Hd Hg].
  destruct (weighted_sample_spec cgpms topo Hd Hg targets constraints inputs Had lp sim Hsim)
    as [[final [ws [E [[W1 [W2 W3]] Hws]]]]|[e [E [l [cc [ct [ci [Hl [Hi He]]]]]]]]]; rewrite E.
  - assert (Hkeys : forall k, In k (dkeys final) <-> In k (dkeys constraints) \/
         (needed cgpms targets (dkeys constraints) k /\ exists i, output_of cgpms i k)).
    { intros k. rewrite W3. split.
      - intros [Hk|[Hk [i [_ Hi]]]]; [left; exact Hk|right]. apply (ta_spec cgpms topo Hd Hg targets constraints inputs Had) in Hk.
        split; [apply Hk|exists i; exact Hi].
      - intros [Hk|[Hk [i Hi]]]; [left; exact Hk|].
        destruct (in_dec Z.eq_dec k (dkeys constraints)) as [Hc|Hc]; [left; exact Hc|right]. split.
        + apply (ta_spec cgpms topo Hd Hg targets constraints inputs Had). eauto.
        + exists i. split; [|exact Hi]. apply (Permutation_in i (Permutation_sym (proj1 Hg))). apply in_indices. apply Hi. }
    split; [exact W1|]. split; [exact W2|]. split.
    { intros t Ht. apply in_dkeys_Some. apply Hkeys. right. split; [apply need_target; exact Ht|].
      apply (ad_targets _ _ _ _ Had t Ht). }
    split; [exact Hkeys|]. exists ws. split; [reflexivity|].
    eapply Forall2_weaken; [|exact Hws]. intros l w [cc [ci [Hnd [Hcc Hor]]]]. exists cc, ci. split.
    + intros k v. specialize (Hcc k). split.
      * intros Hin. rewrite (dget_In_NoDup k v cc Hnd Hin) in Hcc.
        destruct (zmem k (g_outputs (sig_at cgpms l))) eqn:Ez; [|discriminate]. apply zmem_in in Ez. auto.
      * intros [Ho Hv]. rewrite (proj2 (zmem_in _ _) Ho), Hv in Hcc. apply dget_In. exact Hcc.
    + destruct Hor as [Hor|[H1 [H2 [H3 H4]]]]; [left; exact Hor|right].
      split; [exact H1|]. split; [exact H2|]. split.
      * intros k v. rewrite H3. unfold seen.
        destruct (zmem k (g_inputs (sig_at cgpms l))) eqn:Ez.
        -- apply zmem_in in Ez. tauto.
        -- apply zmem_false in Ez. split; [discriminate|tauto].
      * intros i Hi. apply in_dkeys_Some. apply H4. exact Hi.
  - exists l, cc, ct, ci. split; [exact Hl|]. split; [|exact He]. intros i Hi'. apply in_dkeys_Some. apply Hi. exact Hi'.
Qed.
Print Assumptions C19_weighted_sample.

(** Component behaviour for the examples: densities and simulated values are
    arbitrary fixed numbers. *)
Definition ex_lp (l : Z) (c i : dict Z) : res ext := Ok (Fin (IZR (- l - 1))).
Definition ex_sim (l : Z) (T : list Z) (c i : dict Z) : res (dict Z) :=
  Ok (map (fun k => (k, 100 * k + l)) (zset T)).
Lemma ex_sim_ok : returns_targets ex_sim.
Proof.
  intros l T c i s H. injection H as <-. unfold dkeys. rewrite map_map. cbn [fst]. rewrite map_id. unfold zset.
  split; [apply NoDup_nodup|]. intros k. apply nodup_In.
Qed.
Lemma ex_admissible : admissible ex_net [13] [(11, 7)] [(99, 5)].
Proof.
  split.
  - repeat constructor; simpl; auto.
  - repeat constructor; simpl; auto.
  - intros t [<-|[]]. split; [exists 0; split; [simpl; lia|left; reflexivity]|]. simpl. intuition discriminate.
  - intros x Hx Hn. destruct Hx as [t [<-|[]]|c o i Hc Ho _ Hi].
    + exfalso. apply Hn. exists 0. split; [simpl; lia|left; reflexivity].
    + destruct Hc as [<-|[<-|[<-|[]]]]; simpl in Hi.
      * destruct Hi as [<-|[]]. exfalso. apply Hn. exists 1. split; [simpl; lia|right; left; reflexivity].
      * destruct Hi as [<-|[<-|[]]]; [|left; left; reflexivity]. exfalso. apply Hn. exists 2. split; [simpl; lia|left; reflexivity].
      * destruct Hi.
Qed.
Example C19_ex : network_init ex_net = Ok [2; 1; 0] /\ admissible ex_net [13] [(11, 7)] [(99, 5)] /\
  returns_targets ex_sim /\
  exists w, weighted_sample id_ret id_bind ex_net [2; 1; 0] ex_lp ex_sim [13] [(11, 7)] [(99, 5)] =
    Ok ([(11, 7); (10, 1002); (12, 1201); (13, 1300)], w).
Proof.
  split; [reflexivity|]. split; [apply ex_admissible|]. split; [apply ex_sim_ok|]. eexists. reflexivity.
Qed.

(* ================================================================== *)
(** * C20: unbiased weights *)

(** For discrete components whose logpdf and simulate are the marginals and
    conditionals of [outcomes] ([component]), the exponentiated weight of a
    weighted sample has expectation equal to the sum, over all values of all
    outputs consistent with the constraints, of the product of the component
    probabilities ([joint]); more generally so does its product with any
    function of the targets. *)
Theorem C20_unbiased : forall (V : Type) (veqb : V -> V -> bool),
  (forall a b, veqb a b = true <-> a = b) ->
  forall cgpms topo lp sim outcomes targets constraints inputs (g : dict V -> R),
  network_init cgpms = Ok topo ->
  admissible cgpms targets constraints inputs ->
  (forall l, In l topo -> component veqb cgpms lp sim outcomes l) ->
  (forall a b, (forall k, In k targets \/ In k (dkeys constraints) -> dget k a = dget k b) -> g a = g b) ->
  expect (weighted_sample (@Ret) (@pbind) cgpms topo lp sim targets constraints inputs)
    (fun r => match r with Ok (s, w) => lexp w * g s | Err _ => 0 end)%R =
  joint veqb cgpms outcomes constraints topo (dupdate inputs constraints) g.
Proof.
  intros V veqb Hv cgpms topo lp sim outcomes targets constraints inputs g H Had Hco Hgd.
  destruct (network_init_ok _ _ H) as [Hd Hg].
  exact (weighted_sample_law veqb Hv cgpms lp sim outcomes topo Hd Hg Hco targets constraints inputs Had g Hgd).
Qed.
Print Assumptions C20_unbiased.

(** The joint probability of targets and constraints, as logpdf asks for it. *)
Theorem C20_joint_probability : forall (V : Type) (veqb : V -> V -> bool),
  (forall a b, veqb a b = true <-> a = b) ->
  forall cgpms topo lp sim outcomes targets constraints inputs,
  network_init cgpms = Ok topo ->
  admissible cgpms [] (merged targets constraints) inputs ->
  (forall l, In l topo -> component veqb cgpms lp sim outcomes l) ->
  expect (weighted_sample (@Ret) (@pbind) cgpms topo lp sim [] (merged targets constraints) inputs)
    (fun r => match r with Ok (s, w) => lexp w | Err _ => 0 end)%R =
  joint veqb cgpms outcomes (merged targets constraints) topo
    (dupdate inputs (merged targets constraints)) (fun _ => 1%R).
Proof.
  intros V veqb Hv cgpms topo lp sim outcomes targets constraints inputs H Had Hco.
  rewrite <- (C20_unbiased V veqb Hv cgpms topo lp sim outcomes [] (merged targets constraints) inputs (fun _ => 1%R) H Had Hco
    (fun _ _ _ => eq_refl)).
  apply expect_ext_all. intros [[s w]|e]; lra.
Qed.
Print Assumptions C20_joint_probability.

(** Probability tables for [ex_net] with values 0 and 1; the components read
    their input. *)
Definition bern (k : Z) (p : R) : list (dict Z * R) := [([(k, 1)], p); ([(k, 0)], (1 - p)%R)].
Definition ex_table (l : Z) (inp : dict Z) : list (dict Z * R) :=
  if l =? 2 then bern 10 (1/3)%R
  else if l =? 0 then bern 13 (match dget 12 inp with Some 1 => (1/2)%R | _ => (1/5)%R end)
  else match dget 10 inp with
       | Some 1 => [([(11, 1); (12, 1)], (1/2)%R); ([(12, 0); (11, 1)], (1/4)%R); ([(11, 0); (12, 0)], (1/4)%R)]
       | _ => [([(11, 0); (12, 1)], 1%R)]
       end.
Lemma ex_component l : In l [2; 1; 0] -> component Z.eqb ex_net (tlp Z.eqb ex_table) (tsim Z.eqb ex_table) ex_table l.
Proof.
  intros Hl. apply table_component.
  - intros a b H. unfold ex_table. rewrite (H 10), (H 12). reflexivity.
  - intros inp x p. unfold ex_table, bern. destruct Hl as [<-|[<-|[<-|[]]]]; simpl.
    + intros [H|[H|[]]]; injection H as <- <-; lra.
    + destruct (dget 10 inp) as [[|[| |]|]|]; simpl; intuition (match goal with H : (_, _) = (_, _) |- _ => injection H as <- <- end; lra).
    + destruct (dget 12 inp) as [[|[| |]|]|]; simpl; intuition (match goal with H : (_, _) = (_, _) |- _ => injection H as <- <- end; lra).
  - intros inp x p. unfold ex_table, bern. destruct Hl as [<-|[<-|[<-|[]]]]; simpl.
    + intros [H|[H|[]]]; injection H as <- <-; (split; [repeat constructor; simpl; intuition discriminate|simpl; tauto]).
    + destruct (dget 10 inp) as [[|[| |]|]|]; simpl; intuition (match goal with H : (_, _) = (_, _) |- _ => injection H as <- <- end; simpl in *; try tauto; repeat constructor; simpl; intuition discriminate).
    + destruct (dget 12 inp) as [[|[| |]|]|]; simpl; intuition (match goal with H : (_, _) = (_, _) |- _ => injection H as <- <- end; simpl in *; try tauto; repeat constructor; simpl; intuition discriminate).
  - intros inp. unfold ex_table, bern, Rsum. destruct Hl as [<-|[<-|[<-|[]]]]; simpl.
    + lra.
    + destruct (dget 10 inp) as [[|[| |]|]|]; simpl; lra.
    + destruct (dget 12 inp) as [[|[| |]|]|]; simpl; lra.
Qed.
Lemma ex_admissible2 : admissible ex_net [] (merged [(13, 1)] [(11, 1)]) [(99, 5)].
Proof.
  split.
  - repeat constructor; simpl; intuition discriminate.
  - repeat constructor; simpl; auto.
  - intros t [].
  - intros x Hx Hn. destruct Hx as [t []|c o i Hc Ho _ Hi].
    destruct Hc as [<-|[<-|[<-|[]]]]; simpl in Hi.
      * destruct Hi as [<-|[]]. exfalso. apply Hn. exists 1. split; [simpl; lia|right; left; reflexivity].
      * destruct Hi as [<-|[<-|[]]]; [|left; left; reflexivity]. exfalso. apply Hn. exists 2. split; [simpl; lia|left; reflexivity].
      * destruct Hi.
Qed.
(** P(x11 = 1, x13 = 1) = 1/3 (1/2 * 1/2 + 1/4 * 1/5) = 1/10. *)
Example C20_ex :
  (forall l, In l [2; 1; 0] -> component Z.eqb ex_net (tlp Z.eqb ex_table) (tsim Z.eqb ex_table) ex_table l) /\
  admissible ex_net [] (merged [(13, 1)] [(11, 1)]) [(99, 5)] /\
  expect (weighted_sample (@Ret) (@pbind) ex_net [2; 1; 0] (tlp Z.eqb ex_table) (tsim Z.eqb ex_table) []
    (merged [(13, 1)] [(11, 1)]) [(99, 5)])
    (fun r => match r with Ok (s, w) => lexp w | Err _ => 0 end)%R = (1 / 10)%R.
Proof.
  split; [apply ex_component|]. split; [apply ex_admissible2|].
  rewrite (C20_joint_probability Z Z.eqb Z.eqb_eq ex_net [2; 1; 0] _ _ ex_table [(13, 1)] [(11, 1)] [(99, 5)] eq_refl ex_admissible2 ex_component).
  unfold Rsum. simpl. unfold Rsum. simpl. lra.
Qed.

(* ================================================================== *)
(** * C21: simulate and logpdf of a network *)

(** The average of exponentiated log weights. *)
Definition average (ws : list ext) : R := (Rsum (map lexp ws) / INR (length ws))%R.

(** When the particles are drawn with weights that are log densities, simulate
    raises ValueError exactly when all of them are minus infinity; otherwise it
    returns exactly the targets, with the values of one particle whose weight
    is not minus infinity. *)
Theorem C21_simulate :
  forall (V : Type) cgpms topo (lp : nat -> Z -> dict V -> dict V -> res ext) sim targets constraints inputs
    draw from accuracy ps,
  network_init cgpms = Ok topo ->
  admissible cgpms targets constraints inputs ->
  (forall i, returns_targets (sim i)) -> draw_ok draw -> (0 < accuracy)%nat ->
  map (fun i => weighted_sample id_ret id_bind cgpms topo (lp i) (sim i) targets constraints inputs)
    (seq from accuracy) = map Ok ps ->
  Forall (fun sw => logw (snd sw)) ps ->
  let result := simulate_one cgpms topo lp sim draw from accuracy targets constraints inputs in
  ((forall sw, In sw ps -> snd sw = NInf) /\ result = Err ValueError) \/
  (exists d sample r, result = Ok d /\ NoDup (dkeys d) /\ In (sample, Fin r) ps /\
     (forall k, In k (dkeys d) <-> In k targets) /\
     (forall t, In t targets -> dget t d = dget t sample)).
Proof.
  intros V cgpms topo lp sim targets constraints inputs draw from accuracy ps H Had Hsim Hdraw Hacc Hps Hlw result.
  assert (Ep : particles cgpms topo lp sim from accuracy targets constraints inputs = Ok ps).
  { unfold particles. destruct (Nat.eqb_spec accuracy 0) as [E|_]; [lia|]. apply rsequence_ok. exact Hps. }
  assert (Hlen : length ps = accuracy).
  { rewrite <- (map_length Ok ps), <- Hps, map_length, seq_length. reflexivity. }
  assert (Hlw' : Forall logw (map snd ps)) by (rewrite Forall_map; exact Hlw).
  assert (Hb : forallb (fun sw => eisinf (snd sw)) ps = forallb eisinf (map snd ps)).
  { clear. induction ps; [reflexivity|]. simpl. rewrite IHps. reflexivity. }
  assert (Hpos : forall i sw r, nth_error ps i = Some sw -> snd sw = Fin r ->
     exists d, project targets (fst sw) = Ok d /\ NoDup (dkeys d) /\ In sw ps /\
       (forall k, In k (dkeys d) <-> In k targets) /\ (forall t, In t targets -> dget t d = dget t (fst sw))).
  { intros i sw r Hi _.
    assert (Hrun : exists j, weighted_sample id_ret id_bind cgpms topo (lp j) (sim j) targets constraints inputs = Ok sw).
    { apply (map_nth_error Ok) in Hi. rewrite <- Hps in Hi. rewrite nth_error_map in Hi.
      destruct (nth_error (seq from accuracy) i) as [j|]; [|discriminate]. simpl in Hi. injection Hi as Hi. exists j. exact Hi. }
    destruct Hrun as [j Hj].
    pose proof (C19_weighted_sample V cgpms topo (lp j) (sim j) targets constraints inputs H Had (Hsim j)) as HC.
    rewrite Hj in HC. destruct sw as [s w]. destruct HC as [_ [_ [Ht _]]]. cbn [fst].
    destruct (project_spec s targets) as [d [Ed [Hnd Hd]]].
    { intros t Hin. destruct (Ht t Hin) as [v Hv]. eapply dget_Some_in; eauto. }
    exists d. split; [exact Ed|]. split; [exact Hnd|]. split; [eapply nth_error_In; eauto|]. split.
    - intros k. split; intros Hk.
      + apply in_dkeys_Some in Hk. destruct Hk as [v Hv]. rewrite Hd in Hv.
        destruct (zmem k targets) eqn:E; [apply zmem_in; exact E|discriminate].
      + destruct (Ht k Hk) as [v Hv]. apply (dget_Some_in k v). rewrite Hd, (proj2 (zmem_in _ _) Hk). exact Hv.
    - intros t Hin. rewrite Hd, (proj2 (zmem_in _ _) Hin). reflexivity. }
  unfold result, simulate_one. rewrite Ep. cbn [rbind]. rewrite Hb.
  destruct (forallb eisinf (map snd ps)) eqn:Einf.
  - left. split; [|reflexivity]. intros sw Hin. rewrite forallb_forall in Einf.
    rewrite Forall_forall in Hlw. apply eisinf_logw; [apply Hlw; exact Hin|]. apply Einf. apply in_map. exact Hin.
  - right.
    assert (Hsum : (0 < Rsum (map lexp (map snd ps)))%R).
    { pose proof (Rsum_lexp_nonneg (map snd ps)). destruct (Req_dec (Rsum (map lexp (map snd ps))) 0) as [E|E]; [|lra].
      apply all_ninf_sum in E; [congruence|exact Hlw']. }
    destruct (Nat.eqb_spec accuracy 1) as [E1|E1].
    + cbn [rbind]. destruct ps as [|sw [|sw2 ps']]; try (simpl in Hlen; lia). cbn [nth_error].
      simpl in Einf. rewrite andb_true_r in Einf. inversion Hlw as [|? ? Hsw _]; subst.
      destruct sw as [s w]. cbn [fst snd] in *. destruct w as [r| | |]; simpl in Hsw, Einf; try contradiction; try discriminate.
      destruct (Hpos 0%nat (s, Fin r) r eq_refl eq_refl) as [d [Ed [Hnd [Hin [Hk Ht]]]]].
      exists d, s, r. cbn [fst] in *. auto.
    + destruct (log_pflip_spec draw (map snd ps) (seq 0 (length ps)) Hdraw Hlw' Hsum) as [i [a [y [Ef [Ea [Ey Hy]]]]]].
      { rewrite seq_length, map_length. reflexivity. }
      rewrite Ef. cbn [rbind].
      assert (Hi : (i < length ps)%nat).
      { rewrite <- (seq_length (length ps) 0). apply nth_error_Some. rewrite Ea. discriminate. }
      assert (a = i).
      { apply (nth_error_nth _ _ 0%nat) in Ea. rewrite seq_nth in Ea by exact Hi. simpl in Ea. congruence. }
      subst a. destruct (nth_error ps i) as [[s w]|] eqn:Ei; [|apply nth_error_None in Ei; lia].
      rewrite (map_nth_error _ _ _ Ei) in Ey. injection Ey as <-. cbn [fst snd] in *.
      assert (Hw : logw w) by (rewrite Forall_forall in Hlw; apply (Hlw (s, w)); eapply nth_error_In; eauto).
      destruct w as [r| | |]; simpl in Hw, Hy; try contradiction; [|lra].
      destruct (Hpos i (s, Fin r) r Ei eq_refl) as [d [Ed [Hnd [Hin [Hk Ht]]]]].
      exists d, s, r. cbn [fst] in *. auto.
Qed.
Print Assumptions C21_simulate.

(** One result per requested sample, each produced by [simulate_one]. *)
Theorem C21_simulate_count :
  forall (V : Type) cgpms topo (lp : nat -> Z -> dict V -> dict V -> res ext) sim draws accuracy targets constraints inputs n out,
  simulate_n cgpms topo lp sim draws accuracy targets constraints inputs n = Ok out ->
  length out = n /\
  forall k d, nth_error out k = Some d ->
    simulate_one cgpms topo lp sim (draws k) (k * accuracy) accuracy targets constraints inputs = Ok d.
Proof.
  intros V cgpms topo lp sim draws accuracy targets constraints inputs n out H. unfold simulate_n in H.
  split; [rewrite (rsequence_length _ _ H), map_length, seq_length; reflexivity|].
  apply rsequence_ok in H. intros k d Hk. apply (map_nth_error Ok) in Hk. rewrite <- H, nth_error_map in Hk.
  destruct (nth_error (seq 0 n) k) as [j|] eqn:E; [|discriminate]. simpl in Hk. injection Hk as Hk.
  assert (Hkn : (k < n)%nat) by (rewrite <- (seq_length n 0); apply nth_error_Some; rewrite E; discriminate).
  apply (nth_error_nth _ _ 0%nat) in E. rewrite seq_nth in E by exact Hkn. simpl in E. subst j. exact Hk.
Qed.
Print Assumptions C21_simulate_count.

(** logpdf is the log of the average joint weight minus the log of the average
    weight of the evidence (which is one without evidence); it raises
    ValueError exactly when every evidence weight is zero. *)
Theorem C21_logpdf :
  forall (V : Type) cgpms topo (lp : nat -> Z -> dict V -> dict V -> res ext) sim targets constraints inputs
    accuracy joints evidences,
  (0 < accuracy)%nat ->
  map (fun i => weighted_sample id_ret id_bind cgpms topo (lp i) (sim i) [] (merged targets constraints) inputs)
    (seq 0 accuracy) = map Ok joints ->
  map (fun i => weighted_sample id_ret id_bind cgpms topo (lp i) (sim i) [] constraints inputs)
    (seq accuracy accuracy) = map Ok evidences ->
  Forall (fun sw => logw (snd sw)) joints -> Forall (fun sw => logw (snd sw)) evidences ->
  let pj := average (map snd joints) in
  let pe := if is_nil constraints then 1%R else average (map snd evidences) in
  let result := network_logpdf cgpms topo lp sim accuracy targets constraints inputs in
  (pe = 0%R -> result = Err ValueError) /\
  (pe <> 0%R -> (0 < pe)%R /\ exists v, result = Ok v /\
     ((0 < pj)%R /\ v = Fin (ln pj - ln pe) \/ pj = 0%R /\ v = NInf)).
Proof.
  intros V cgpms topo lp sim targets constraints inputs accuracy joints evidences Hacc Hj He Hlj Hle pj pe result.
  assert (Hpart : forall from T c ps, map (fun i => weighted_sample id_ret id_bind cgpms topo (lp i) (sim i) T c inputs)
     (seq from accuracy) = map Ok ps -> particles cgpms topo lp sim from accuracy T c inputs = Ok ps /\ length ps = accuracy).
  { intros from T c ps H. split.
    - unfold particles. destruct (Nat.eqb_spec accuracy 0); [lia|]. apply rsequence_ok. exact H.
    - rewrite <- (map_length Ok ps), <- H, map_length, seq_length. reflexivity. }
  destruct (Hpart _ _ _ _ Hj) as [Ej Lj]. destruct (Hpart _ _ _ _ He) as [Ee Le]. clear Hpart.
  assert (Hlj' : Forall logw (map snd joints)) by (rewrite Forall_map; exact Hlj).
  assert (Hle' : Forall logw (map snd evidences)) by (rewrite Forall_map; exact Hle).
  assert (Hne : forall A (l : list A), length l = accuracy -> l <> []) by (intros A l Hl E; subst l; simpl in Hl; lia).
  assert (Hnn : forall l, l <> [] -> (0 <= average l)%R /\ (average l = 0%R <-> Rsum (map lexp l) = 0%R)).
  { intros l Hl. assert (HN : (0 < INR (length l))%R) by (apply lt_0_INR; destruct l; [congruence|simpl; lia]).
    pose proof (Rsum_lexp_nonneg l). unfold average. split; [apply Rmult_le_pos; [assumption|left; apply Rinv_0_lt_compat; exact HN]|].
    split; intros E.
    - apply (f_equal (fun x => (x * INR (length l))%R)) in E. unfold Rdiv in E.
      rewrite Rmult_assoc, Rinv_l, Rmult_0_l in E by lra. lra.
    - rewrite E. unfold Rdiv. ring. }
  assert (Hj1 : (0 <= pj)%R) by (apply Hnn; apply Hne; rewrite map_length; exact Lj).
  unfold result, network_logpdf. rewrite Ej. cbn [rbind].
  rewrite logmeanexp_logw by (auto; apply Hne; rewrite map_length; exact Lj). cbn [rbind].
  change (Rsum (map lexp (map snd joints)) / INR (length (map snd joints)))%R with pj.
  assert (Hfin : forall v, (0 < v)%R -> exists u, Ok (esub (log_of pj) (log_of v)) = Ok u /\
     ((0 < pj)%R /\ u = Fin (ln pj - ln v) \/ pj = 0%R /\ u = NInf)).
  { intros v Hv. eexists. split; [reflexivity|]. rewrite (log_of_pos v Hv).
    destruct (Rle_lt_or_eq_dec 0 pj Hj1) as [Hp|Hp].
    - left. split; [exact Hp|]. rewrite (log_of_pos pj Hp). reflexivity.
    - right. split; [symmetry; exact Hp|]. rewrite <- Hp, log_of_0. reflexivity. }
  unfold pe. destruct (is_nil constraints) eqn:En; cbn [rbind].
  - cbn [forallb eisinf andb].
    rewrite logmeanexp_logw by (try discriminate; repeat constructor).
    cbn [rbind map length]. split; [intros E; lra|]. intros _. split; [lra|].
    replace (Rsum [lexp (Fin 0)] / INR 1)%R with 1%R by (unfold Rsum; simpl; rewrite exp_0; lra).
    apply Hfin. lra.
  - rewrite Ee. cbn [rbind].
    destruct (Hnn (map snd evidences)) as [He1 He2]; [apply Hne; rewrite map_length; exact Le|].
    destruct (forallb eisinf (map snd evidences)) eqn:Einf.
    + apply all_ninf_sum in Einf; [|exact Hle']. apply He2 in Einf. split; [reflexivity|intros C; contradiction].
    + assert (Hnz : average (map snd evidences) <> 0%R).
      { intros E. apply He2, all_ninf_sum in E; [congruence|exact Hle']. }
      split; [intros E; contradiction|]. intros _. split; [lra|].
      rewrite logmeanexp_logw by (auto; apply Hne; rewrite map_length; exact Le). cbn [rbind].
      apply Hfin. unfold average in *. lra.
Qed.
Print Assumptions C21_logpdf.

(** Two particles, the first of weight zero. *)
Definition ex_lps (i : nat) (l : Z) (c inp : dict Z) : res ext := Ok (if Nat.eqb i 0 then NInf else Fin (-1)).
Definition ex_sims (i : nat) := ex_sim.
Example C21_simulate_ex :
  exists ps, map (fun i => weighted_sample id_ret id_bind ex_net [2; 1; 0] (ex_lps i) (ex_sims i) [13] [(11, 7)] [(99, 5)])
    (seq 0 2) = map Ok ps /\ Forall (fun sw => logw (snd sw)) ps /\ map snd ps = [NInf; Fin (0 + 0 + -1 + 0)] /\
  (exists d, simulate_one ex_net [2; 1; 0] ex_lps ex_sims first_pos 0 2 [13] [(11, 7)] [(99, 5)] = Ok d /\ dkeys d = [13]).
Proof.
  exists [([(11, 7); (10, 1002); (12, 1201); (13, 1300)], NInf);
     ([(11, 7); (10, 1002); (12, 1201); (13, 1300)], Fin (0 + 0 + -1 + 0))].
  split; [reflexivity|]. split; [repeat constructor|]. split; [reflexivity|].
  destruct (C21_simulate Z ex_net [2; 1; 0] ex_lps ex_sims [13] [(11, 7)] [(99, 5)] first_pos 0 2
    [([(11, 7); (10, 1002); (12, 1201); (13, 1300)], NInf);
     ([(11, 7); (10, 1002); (12, 1201); (13, 1300)], Fin (0 + 0 + -1 + 0))]) as [[F _]|[d [s [r [E [Hn [_ [Hk _]]]]]]]].
  - reflexivity.
  - apply ex_admissible.
  - intros i. apply ex_sim_ok.
  - apply C16_draw_ex.
  - lia.
  - reflexivity.
  - repeat constructor.
  - exfalso. specialize (F _ (or_intror (or_introl eq_refl))). discriminate.
  - exists d. split; [exact E|].
    destruct (dkeys d) as [|a [|b l]] eqn:Ed.
    + exfalso. apply (Hk 13). left; reflexivity.
    + destruct (proj1 (Hk a)) as [<-|[]]; [left; reflexivity|reflexivity].
    + exfalso. inversion Hn as [|? ? Ha Hn']; subst.
      destruct (proj1 (Hk a)) as [<-|[]]; [left; reflexivity|]. destruct (proj1 (Hk b)) as [<-|[]]; [right; left; reflexivity|].
      apply Ha. left; reflexivity.
Qed.
Example C21_logpdf_ex :
  exists joints evidences,
  map (fun i => weighted_sample id_ret id_bind ex_net [2; 1; 0] (ex_lps i) (ex_sims i) [] (merged [(13, 1)] [(11, 7)]) [(99, 5)])
    (seq 0 2) = map Ok joints /\
  map (fun i => weighted_sample id_ret id_bind ex_net [2; 1; 0] (ex_lps i) (ex_sims i) [] [(11, 7)] [(99, 5)])
    (seq 2 2) = map Ok evidences /\
  Forall (fun sw => logw (snd sw)) joints /\ Forall (fun sw => logw (snd sw)) evidences /\
  (0 < average (map snd joints))%R.
Proof.
  exists [([(13, 1); (11, 7); (10, 1002); (12, 1201)], NInf); ([(13, 1); (11, 7); (10, 1002); (12, 1201)], Fin (0 + 0 + -1 + -1))],
    [([(11, 7); (10, 1002)], Fin (0 + 0 + -1 + 0)); ([(11, 7); (10, 1002)], Fin (0 + 0 + -1 + 0))].
  split; [reflexivity|]. split; [reflexivity|]. split; [repeat constructor|]. split; [repeat constructor|].
  unfold average, Rsum. simpl. pose proof (exp_pos (0 + 0 + -1 + -1)). lra.
Qed.
