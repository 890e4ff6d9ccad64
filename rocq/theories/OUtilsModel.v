(** OUtilsModel.v -- model of jsonclasses/outils.py: taking ownership of nested
    collections and copying them back.

    A value is a tree: leaves (anything that is not a list or dict), lists and
    dicts.  A list or dict carries the label (owner, keypath) when it is an
    OwnedList / OwnedDict, and no label when it is a plain list / dict.  Dict keys
    are strings or ints. *)
From Verif Require Import Base KeypathModel.
Open Scope Z_scope.

Section Trees.
  Context {O A : Type}.

  Inductive tree :=
  | TLeaf (a : A)
  | TList (lab : option (O * string)) (xs : list tree)
  | TDict (lab : option (O * string)) (kvs : list (karg * tree)).

  (** outils.py:14-28 to_owned_dict and 31-45 to_owned_list: [own o kp t] is
      [to_owned_list(o, t, kp)] on lists, [to_owned_dict(o, t, kp)] on dicts, and the
      value itself otherwise (lines 24, 41). *)
  Fixpoint own (o : O) (kp : string) (t : tree) : tree :=
    match t with
    | TLeaf a => TLeaf a
    | TList _ xs =>
        TList (Some (o, kp))
          ((fix go (i : Z) (xs : list tree) : list tree :=
              match xs with
              | [] => []
              | x :: r => own o (concat_keypath [KStr kp; KInt i]) x :: go (i + 1) r
              end) 0 xs)
    | TDict _ kvs =>
        TDict (Some (o, kp))
          ((fix go (kvs : list (karg * tree)) : list (karg * tree) :=
              match kvs with
              | [] => []
              | (k, x) :: r => (k, own o (concat_keypath [KStr kp; k]) x) :: go r
              end) kvs)
    end.

  (** outils.py:48-57 unowned_copy_dict and 60-69 unowned_copy_list. *)
  Fixpoint unown (t : tree) : tree :=
    match t with
    | TLeaf a => TLeaf a
    | TList _ xs => TList None (map unown xs)
    | TDict _ kvs => TDict None (map (fun kv => (fst kv, unown (snd kv))) kvs)
    end.
End Trees.
Arguments tree : clear implicits.
