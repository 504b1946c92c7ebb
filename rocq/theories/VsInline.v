(** Model of the inline Venturescript cgpm, /repo/src/venturescript/vsinline.py.

    A text is a list of characters (those above 127 are dropped by line 127 of the code).
    The interpreter (the ripl) is external: kept are the labels of its live directives and
    how many samples it has drawn.  The density and the sample of the expression applied to
    its arguments are arguments ([density], [sample]; None when Venture raises), as is the
    text of a value ([show]).  A directive under a live label is refused, and so is a second
    directive that assumes the symbol expr; exceptions of Venture are RuntimeError.
    Executing the expression in the constructor (56-57) is taken to succeed. *)
From Verif Require Export Base.
From Coq Require Import Ascii.

Definition text : Type := list ascii.
Definition comma : ascii := ","%char.
Definition lpar : ascii := "("%char.
Definition rpar : ascii := ")"%char.
Definition tilde : ascii := "~"%char.
Definition greater : ascii := ">"%char.

(** [encode('ascii', 'ignore')] and [translate(None, string.whitespace)],
    vsinline.py:127-128: tab to carriage return, and space. *)
Definition is_ascii (a : ascii) : bool := Nat.ltb (nat_of_ascii a) 128.
Definition is_space (a : ascii) : bool :=
  (Nat.leb 9 (nat_of_ascii a) && Nat.leb (nat_of_ascii a) 13) || Nat.eqb (nat_of_ascii a) 32.
Definition strip (t : text) : text := filter (fun a => is_ascii a && negb (is_space a)) t.
(** [expression.split('~>')\[0\]], vsinline.py:130-132. *)
Fixpoint before_arrow (t : text) : text :=
  match t with
  | [] => []
  | a :: t' =>
      match t' with
      | b :: _ => if Ascii.eqb a tilde && Ascii.eqb b greater then [] else a :: before_arrow t'
      | [] => [a]
      end
  end.
(** [.split(',')], vsinline.py:133. *)
Fixpoint split_comma (t : text) : list text :=
  match t with
  | [] => [[]]
  | a :: t' =>
      if Ascii.eqb a comma then [] :: split_comma t'
      else match split_comma t' with w :: ws => (a :: w) :: ws | [] => [[a]] end
  end.
Definition nonempty (t : text) : bool := match t with [] => false | _ => true end.
(** InlineVsCGpm._validate_expression_concrete, vsinline.py:121-134: the arguments. *)
Definition arguments (expression : text) : list text :=
  filter nonempty (split_comma (filter (fun a => negb (Ascii.eqb a lpar || Ascii.eqb a rpar)) (before_arrow (strip expression)))).

Inductive label : Type := ExprAssume | ExprObserve | Expr.
Definition label_eqb (a b : label) : bool :=
  match a, b with ExprAssume, ExprAssume | ExprObserve, ExprObserve | Expr, Expr => true | _, _ => false end.
Record inl := Inl { i_out : list Z; i_in : list Z; i_expr : text; i_live : list label; i_drawn : nat }.

Definition iunique (l : list Z) : bool := Nat.eqb (length (nodup Z.eq_dec l)) (length l).
(** InlineVsCGpm.__init__, vsinline.py:31-57. *)
Definition inl_new (outputs inputs : list Z) (expression : option text) : res inl :=
  if negb (Nat.eqb (length outputs) 1) then Err ValueError                         (* 36 *)
  else if negb (iunique inputs) then Err ValueError                                (* 38 *)
  else if negb (forallb (fun o => negb (zmem o inputs)) outputs) then Err ValueError
  else if negb (forallb (fun i => negb (zmem i outputs)) inputs) then Err ValueError
  else match expression with
  | None => Err ValueError                                                         (* 45 *)
  | Some e =>
      if Nat.eqb (length (arguments e)) (length inputs) then Ok (Inl outputs inputs e [] 0)
      else Err AssertionError                                                      (* 134 *)
  end.

Section Inline.
Context {V D : Type} (show : V -> text) (density : text -> text -> V -> option D) (sample : text -> text -> nat -> option V).

Definition set_live (c : inl) (l : list label) : inl := Inl (i_out c) (i_in c) (i_expr c) l (i_drawn c).
(** ripl.assume('expr', ..., label=l), ripl.forget(l). *)
Definition assume (c : inl) (l : label) : inl * res unit :=
  if existsb (fun a => label_eqb a l || label_eqb a ExprAssume || label_eqb a Expr) (i_live c) then (c, Err RuntimeError)
  else (set_live c (i_live c ++ [l]), Ok tt).
Definition forget (c : inl) (l : label) : inl * res unit :=
  if existsb (label_eqb l) (i_live c) then (set_live c (filter (fun a => negb (label_eqb l a)) (i_live c)), Ok tt)
  else (c, Err RuntimeError).
(** ripl.observe('expr (args)', value, label='expr_observe'). *)
Definition observe (c : inl) (args : text) (v : V) : inl * res D :=
  if existsb (label_eqb ExprObserve) (i_live c) then (c, Err RuntimeError)
  else match density (i_expr c) args v with
  | None => (c, Err RuntimeError)
  | Some d => (set_live c (i_live c ++ [ExprObserve]), Ok d)
  end.
(** ripl.sample('expr(args)'). *)
Definition rsample (c : inl) (args : text) : inl * res V :=
  let c' := Inl (i_out c) (i_in c) (i_expr c) (i_live c) (S (i_drawn c)) in
  match sample (i_expr c) args (i_drawn c) with None => (c', Err RuntimeError) | Some v => (c', Ok v) end.
(** [x; y]: the first exception ends. *)
Definition andthen {A B} (x : inl * res A) (f : inl -> A -> inl * res B) : inl * res B :=
  match x with (c, Ok a) => f c a | (c, Err e) => (c, Err e) end.

Definition iset_eq (a b : list Z) : bool := forallb (fun x => zmem x b) a && forallb (fun x => zmem x a) b.
(** [str.join(',', l)]. *)
Fixpoint join (l : list text) : text :=
  match l with [] => [] | [t] => t | t :: l' => t ++ [comma] ++ join l' end.
(** InlineVsCGpm._retrieve_args, vsinline.py:103-104. *)
Fixpoint values (names : list Z) (inputs : dict V) : res (list V) :=
  match names with
  | [] => Ok []
  | i :: names' => match dget i inputs with None => Err KeyError | Some v => rbind (values names' inputs) (fun l => Ok (v :: l)) end
  end.
Definition retrieve_args (c : inl) (inputs : dict V) : res text :=
  rbind (values (i_in c) inputs) (fun l => Ok (join (map show l))).

Definition plain {A} (d : option (dict A)) : bool := match d with None | Some [] => true | _ => false end.
(** InlineVsCGpm.logpdf, vsinline.py:65-82. *)
Definition inl_logpdf (c : inl) (targets : dict V) (constraints inputs : option (dict V)) : inl * res D :=
  let inputs := match inputs with Some d => d | None => [] end in                  (* 66-67 *)
  if negb (iset_eq (dkeys inputs) (i_in c)) then (c, Err AssertionError)
  else if negb (if list_eq_dec Z.eq_dec (dkeys targets) (i_out c) then true else false) then (c, Err AssertionError)
  else if negb (plain constraints) then (c, Err AssertionError)
  else andthen (assume c ExprAssume) (fun c _ =>                                   (* 71 *)
    match retrieve_args c inputs, i_out c with
    | Err e, _ => (c, Err e)
    | _, [] => (c, Err IndexError)
    | Ok args, o :: _ =>
        match dget o targets with
        | None => (c, Err KeyError)
        | Some v =>
            andthen (observe c args v) (fun c d =>                                 (* 74-78 *)
            andthen (forget c ExprObserve) (fun c _ =>
            andthen (forget c ExprAssume) (fun c _ => (c, Ok d))))
        end
    end).

(** InlineVsCGpm.simulate, vsinline.py:84-95. *)
Definition inl_simulate1 (c : inl) (targets : list Z) (constraints inputs : option (dict V)) : inl * res (dict V) :=
  let inputs := match inputs with Some d => d | None => [] end in
  if negb (iset_eq (dkeys inputs) (i_in c)) then (c, Err AssertionError)
  else if negb (if list_eq_dec Z.eq_dec targets (i_out c) then true else false) then (c, Err AssertionError)
  else if negb (plain constraints) then (c, Err AssertionError)
  else andthen (assume c Expr) (fun c _ =>                                         (* 91 *)
    match retrieve_args c inputs, i_out c with
    | Err e, _ => (c, Err e)
    | _, [] => (c, Err IndexError)
    | Ok args, o :: _ =>
        andthen (rsample c args) (fun c v =>
        andthen (forget c Expr) (fun c _ => (c, Ok [(o, v)])))
    end).
(** The decorator simulate_many, general.py:403-413, once for each sample. *)
Fixpoint inl_many (c : inl) (targets : list Z) (constraints inputs : option (dict V)) (n : nat) : inl * res (list (dict V)) :=
  match n with
  | O => (c, Ok [])
  | S n' =>
      andthen (inl_simulate1 c targets constraints inputs) (fun c s =>
      andthen (inl_many c targets constraints inputs n') (fun c l => (c, Ok (s :: l))))
  end.

(** incorporate, unincorporate and transition do nothing, vsinline.py:59-63, 100-101. *)
Definition inl_incorporate (c : inl) (r : Z) (observation inputs : dict V) : inl := c.
Definition inl_unincorporate (c : inl) (r : Z) : inl := c.
End Inline.

(** to_metadata and from_metadata, vsinline.py:136-152. *)
Definition inl_to_metadata (c : inl) : list Z * list Z * text := (i_out c, i_in c, i_expr c).
Definition inl_from_metadata (m : list Z * list Z * text) : res inl :=
  let '(o, i, e) := m in inl_new o i (Some e).
