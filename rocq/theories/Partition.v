(** Model of /repo/src/utils/validation.py:106-149: splitting a query by an
    assignment of variables to blocks. *)
From Verif Require Export Base.

(** [dict(l)] of a list of pairs. *)
Definition dict_of {A} (l : list (Z * A)) : dict A :=
  fold_left (fun d kv => dset (fst kv) (snd kv) d) l [].

(** One pass of the loops, validation.py:125-130 and 143-148: [result[k].append(x)],
    creating the list if needed. *)
Definition add_group {A} (k : Z) (x : A) (result : dict (list A)) : dict (list A) :=
  match dget k result with
  | Some l => dset k (l ++ [x]) result
  | None => dset k [x] result
  end.

(** partition_list, validation.py:115-131. *)
Fixpoint group_list (Zd : dict Z) (L : list Z) (result : dict (list Z)) : res (dict (list Z)) :=
  match L with
  | [] => Ok result
  | l :: L' =>
      match dget l Zd with
      | None => Err KeyError
      | Some k => group_list Zd L' (add_group k l result)
      end
  end.
Definition partition_list (Zd : dict Z) (L : list Z) : res (dict (list Z)) := group_list Zd L [].

(** partition_dict, validation.py:133-149. *)
Fixpoint group_dict {A} (Zd : dict Z) (L : dict A) (result : dict (list (Z * A)))
  : res (dict (list (Z * A))) :=
  match L with
  | [] => Ok result
  | (l, x) :: L' =>
      match dget l Zd with
      | None => Err KeyError
      | Some k => group_dict Zd L' (add_group k (l, x) result)
      end
  end.
Definition partition_dict {A} (Zd : dict Z) (L : dict A) : res (dict (dict A)) :=
  rbind (group_dict Zd L []) (fun result => Ok (dmap dict_of result)).
