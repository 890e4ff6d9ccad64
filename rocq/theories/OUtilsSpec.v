(** OUtilsSpec.v -- content, positions and labels of nested collections. *)
From Verif Require Import Base KeypathModel OUtilsModel.
Open Scope Z_scope.

(** The same content at every depth, whatever the labels. *)
Inductive same_content {O A} : tree O A -> tree O A -> Prop :=
| sc_leaf a : same_content (TLeaf a) (TLeaf a)
| sc_list l1 l2 xs ys : Forall2 same_content xs ys -> same_content (TList l1 xs) (TList l2 ys)
| sc_dict l1 l2 xs ys :
    Forall2 (fun p q => fst p = fst q /\ same_content (snd p) (snd q)) xs ys ->
    same_content (TDict l1 xs) (TDict l2 ys).

Definition karg_eqb (a b : karg) : bool :=
  match a, b with
  | KStr s, KStr t => String.eqb s t
  | KInt i, KInt j => Z.eqb i j
  | _, _ => false
  end.

(** What sits at a path of list indexes and dict keys. *)
Fixpoint at_path {O A} (t : tree O A) (path : list karg) : option (tree O A) :=
  match path with
  | [] => Some t
  | k :: path' =>
      match t, k with
      | TList _ xs, KInt i =>
          if i <? 0 then None
          else match nth_error xs (Z.to_nat i) with Some x => at_path x path' | None => None end
      | TDict _ kvs, _ =>
          match dget karg_eqb k kvs with Some x => at_path x path' | None => None end
      | _, _ => None
      end
  end.

(** The label of a list or dict; a leaf has none to speak of. *)
Definition labelled {O A} (lab : option (O * string)) (t : tree O A) : Prop :=
  match t with
  | TLeaf _ => True
  | TList l _ | TDict l _ => l = lab
  end.
