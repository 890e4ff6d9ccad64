(** ReportSpec.v -- the words of C80: the places below an object, the types declared for
    them, and the failures that a report may name. *)
From Verif Require Import Base Mon KeypathModel Values ChainModel TypesModel ObjModel IoModel ValidateSpec ReachSpec.
Open Scope list_scope.

(** No callable, getter or arithmetic of the program raises a validation error of its own. *)
Record courteous (P : program) : Prop := {
  court_getter : forall h o n l, p_getter P h o n <> Err (EValidation l);
  court_call : forall f c args h l, fst (p_call P f c args h) <> Err (EValidation l);
  court_arith : forall op a b l, p_arith P op a b <> Err (EValidation l)
}.

Section Report.
  Context (P : program) (w : world) (root : oid).

  (** The chain for the items of a list or dict, with or without a requirement added *)
  Definition item_chain (ts it : types) : Prop :=
    exists it0, items ts it0 /\ (it = it0 \/ it = it0 ++ [MRequired]).

  (** [placed path ts v a]: the keys of [path] lead from [root] to the value [v], for which
      the types [ts] are declared.  A field is named by the output name it has by the
      rules of the class of [a]: of the object itself or, if that is an item of a list or
      dict, of the object that holds the list or dict. *)
  Inductive placed : list karg -> types -> value -> value -> Prop :=
  | pl_root : placed [] [MInstance (wclass w root)] (VObj root) (VObj root)
  | pl_field path ts x a cls f v : placed path ts (VObj x) (VObj a) -> checks ts (MInstance cls) -> due_field P w x f v ->
      placed (path ++ [KStr (cd_outkey (wcdef P w a) (fl_name f))]) (fl_types f) v (if is_inst_field f then v else VObj x)
  | pl_item path ts l a it0 it i u : placed path ts (VList l) a -> checks ts (MListOf it0) -> item_chain ts it ->
      nth_error l i = Some u -> placed (path ++ [KInt (Z.of_nat i)]) it u a
  | pl_entry path ts l a it0 it k u : placed path ts (VDict l) a -> checks ts (MDictOf it0) -> item_chain ts it ->
      In (k, u) l -> placed (path ++ [KStr k]) it u a.

  (** A modifier declared for the place [path] rejected the value that is there, with the
      message [msg]. *)
  Record rejected (path : list karg) (msg : string) (ts : types) (v : value) (m : mdf) (fuel : nat) (c : ctx) : Prop := {
    rj_place : exists a, placed path ts v a;
    rj_types : checks ts m;
    rj_value : c_val c = v;
    rj_path : c_fkr c = path;
    rj_run : exists w1 l w2, w_heap w1 = w_heap w /\
      m_validate (interp P fuel m) c w1 = (Err (EValidation l), w2) /\ In (skp path, msg) l
  }.
End Report.
