(** Model of the readers of schemas: parse_distargs, /repo/src/utils/config.py:91-110, and
    parse_schema and build_valmap, /repo/src/utils/data.py:25-120.

    A text is a list of characters.  float is an argument ([float]: None for ValueError).  The
    values of a table are of any type with decidable equality ([na] is 'NA'); a missing value
    is [Null].  [sort] is Python's sorted, which on floats with a missing value among them may
    give any order: an argument.  Series.replace is taken to replace all values at once.  The
    table T, the transpose of the list of columns, is given by its columns.  A comparison of an
    integer with a list is true in Python 2 (data.py:110). *)
From Verif Require Export Base.
From Coq Require Import Ascii.

Definition text : Type := list ascii.
Definition text_dec : forall a b : text, {a = b} + {a <> b} := list_eq_dec ascii_dec.
Definition lpar : ascii := "("%char.
Definition rpar : ascii := ")"%char.
Definition newline : ascii := "010"%char.

(** Dictionaries with texts, or values, for keys. *)
Fixpoint kget {K A} (dec : forall a b : K, {a = b} + {a <> b}) (k : K) (d : list (K * A)) : option A :=
  match d with [] => None | (k', v) :: d' => if dec k k' then Some v else kget dec k d' end.
Fixpoint kset {K A} (dec : forall a b : K, {a = b} + {a <> b}) (k : K) (v : A) (d : list (K * A)) : list (K * A) :=
  match d with [] => [(k, v)] | (k', v') :: d' => if dec k k' then (k, v) :: d' else (k', v') :: kset dec k v d' end.

(** [re.search('\(.*\)', t)], config.py:98: from the first parenthesis from which it can, to
    the last closing one of the line.  The text between. *)
Fixpoint greedy (t : text) : option text :=
  match t with
  | [] => None
  | a :: t' =>
      if Ascii.eqb a newline then None
      else match greedy t' with
      | Some w => Some (a :: w)
      | None => if Ascii.eqb a rpar then Some [] else None
      end
  end.
Fixpoint search (t : text) : option text :=
  match t with
  | [] => None
  | a :: t' => if Ascii.eqb a lpar then match greedy t' with Some w => Some w | None => search t' end else search t'
  end.
(** [str.split(c)]. *)
Fixpoint split_on (c : ascii) (t : text) : list text :=
  match t with
  | [] => [[]]
  | a :: t' =>
      if Ascii.eqb a c then [] :: split_on c t'
      else match split_on c t' with w :: ws => (a :: w) :: ws | [] => [[a]] end
  end.
(** [t\[:t.index('(')\]], config.py:107. *)
Fixpoint before_paren (t : text) : text :=
  match t with [] => [] | a :: t' => if Ascii.eqb a lpar then [] else a :: before_paren t' end.

Section Distargs.
Context {F : Type} (float : text -> option F).
(** config.py:103-105. *)
Fixpoint pairs (l : list text) (temp : list (text * F)) : res (list (text * F)) :=
  match l with
  | [] => Ok temp
  | p :: l' =>
      match split_on "="%char p with
      | [key; val] => match float val with Some x => pairs l' (kset text_dec key x temp) | None => Err ValueError end
      | _ => Err ValueError
      end
  end.
(** One cctype, config.py:98-109. *)
Definition parse_one (cctype : text) : res (text * option (list (text * F))) :=
  match search cctype with
  | None => Ok (cctype, None)
  | Some w =>
      rbind (pairs (split_on ","%char (filter (fun a => negb (Ascii.eqb a lpar || Ascii.eqb a rpar)) w)) []) (fun temp =>
      Ok (before_paren cctype, Some temp))
  end.
(** parse_distargs, config.py:91-110. *)
Fixpoint parse_distargs (dists : list text) : res (list text * list (option (list (text * F)))) :=
  match dists with
  | [] => Ok ([], [])
  | t :: dists' =>
      rbind (parse_one t) (fun '(c, k) =>
      rbind (parse_distargs dists') (fun '(cs, ks) => Ok (c :: cs, k :: ks)))
  end.
End Distargs.

Inductive cell (U : Type) : Type := Null | Val (u : U).
Arguments Null {U}. Arguments Val {U}.
(** A cell of the table that is returned: a value, or the code of one. *)
Inductive coded (U : Type) : Type := Raw (x : cell U) | Code (k : nat).
Arguments Raw {U}. Arguments Code {U}.

Section Schema.
Context {U F : Type} (udec : forall a b : U, {a = b} + {a <> b}) (na : U) (sort : list (cell U) -> list (cell U)) (float : text -> option F).

Definition cdec : forall a b : cell U, {a = b} + {a <> b}.
Proof. decide equality. Defined.
(** [column.unique()]: the values by first occurrence. *)
Fixpoint unique (l : list (cell U)) : list (cell U) :=
  match l with [] => [] | x :: l' => x :: filter (fun y => if cdec x y then false else true) (unique l') end.
(** build_valmap, data.py:118-120. *)
Fixpoint nonnull (l : list (cell U)) : list U :=
  match l with [] => [] | Null :: l' => nonnull l' | Val u :: l' => u :: nonnull l' end.
Definition build_valmap (column : list (cell U)) : list (U * nat) :=
  let uniques := nonnull (sort (unique column)) in combine uniques (seq 0 (length uniques)).
(** [X.replace(mapping)], data.py:100. *)
Definition replace (mapping : list (U * nat)) (x : cell U) : coded U :=
  match x with
  | Null => Raw Null
  | Val u => match kget udec u mapping with Some k => Code k | None => Raw (Val u) end
  end.
(** [dataframe.replace('NA', np.nan)], data.py:83. *)
Definition missing (x : cell U) : cell U := match x with Val u => if udec u na then Null else Val u | Null => Null end.

Definition s_ignore : text := ["i"; "g"; "n"; "o"; "r"; "e"]%char.
Definition s_bernoulli : text := ["b"; "e"; "r"; "n"; "o"; "u"; "l"; "l"; "i"]%char.
Definition s_categorical : text := ["c"; "a"; "t"; "e"; "g"; "o"; "r"; "i"; "c"; "a"; "l"]%char.

(** What is collected for a column: name, index, cctype, number of categories, mapping (of the
    discrete columns) and data. *)
Record entry := Entry { e_column : text; e_index : Z; e_cctype : text; e_k : option nat; e_map : option (list (U * nat)); e_data : list (coded U) }.
(** The body of the loop, data.py:89-111; None for a column that is ignored. *)
Definition read_column (frame : list (text * list (cell U))) (s : text * text * Z) : res (option entry) :=
  let '(column, stattype, index) := s in
  if text_dec stattype s_ignore then Ok None                                       (* 90 *)
  else match kget text_dec column frame with
  | None => Err KeyError                                                           (* 92 *)
  | Some x =>
      let x := map missing x in                                                    (* 83 *)
      if text_dec stattype s_bernoulli then
        let mapping := build_valmap x in
        if Nat.eqb (length mapping) 2 then Ok (Some (Entry column index stattype None (Some mapping) (map (replace mapping) x)))
        else Err AssertionError                                                    (* 103 *)
      else if text_dec stattype s_categorical then
        let mapping := build_valmap x in
        rbind (parse_distargs float [column]) (fun '(_, k_user) =>                 (* 106 *)
        let k := match k_user with [None] => Some (length mapping) | _ => None end in
        Ok (Some (Entry column index stattype k (Some mapping) (map (replace mapping) x))))
      else Ok (Some (Entry column index stattype None None (map Raw x)))
  end.
Fixpoint read_columns (frame : list (text * list (cell U))) (schema : list (text * text * Z)) : res (list entry) :=
  match schema with
  | [] => Ok []
  | s :: schema' =>
      rbind (read_column frame s) (fun e =>
      rbind (read_columns frame schema') (fun l => Ok (match e with Some e => e :: l | None => l end)))
  end.
(** valmap\[column\] = mapping, data.py:101. *)
Fixpoint valmaps (l : list entry) (m : list (text * list (U * nat))) : list (text * list (U * nat)) :=
  match l with
  | [] => m
  | e :: l' => valmaps l' (match e_map e with Some f => kset text_dec (e_column e) f m | None => m end)
  end.
Record parsed := Parsed { p_T : list (list (coded U)); p_outputs : list Z; p_cctypes : list text; p_distargs : list (option nat);
  p_valmap : list (text * list (U * nat)); p_columns : list text }.
(** parse_schema, data.py:25-115.  An empty list of columns has no T.shape\[1\] (114). *)
Definition parse_schema (schema : list (text * text * Z)) (frame : list (text * list (cell U))) : res parsed :=
  rbind (read_columns frame schema) (fun l =>
  match l with
  | [] => Err IndexError
  | _ => Ok (Parsed (map e_data l) (map e_index l) (map e_cctype l) (map e_k l) (valmaps l []) (map e_column l))
  end).
End Schema.
