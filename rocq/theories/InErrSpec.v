(** InErrSpec.v -- the words of C88: the places in the input of a constructor or of [set],
    the types declared for them, and the refusals that a report may name. *)
From Verif Require Import Base Mon KeypathModel Values ChainModel TypesModel ObjModel IoModel ReachSpec ReportSpec MakeSpec StrictSpec.
Open Scope list_scope.

(** The user's callables and setters raise no validation error of their own, remove no
    object and change the class of none. *)
Definition same_classes (h h' : heap) : Prop :=
  (h_next h <= h_next h')%nat /\ forall o, (o < h_next h)%nat -> o_class (h_obj h' o) = o_class (h_obj h o).
Record polite (P : program) : Prop := {
  po_courteous : courteous P;
  po_setter : forall o n v h l, fst (p_setter P o n v h) <> Err (EValidation l);
  po_call_class : forall f c args h, same_classes h (snd (p_call P f c args h));
  po_setter_class : forall o n v h, same_classes h (snd (p_setter P o n v h))
}.

Section InErr.
  Context (P : program) (cls0 : string) (kw0 : list (string * value)).

  (** The name that the class [cls] gives to the field [n] outside *)
  Definition outname (cls n : string) : string := match p_ct P cls with Some d => cd_outkey d n | None => n end.

  (** [made pre v u]: the modifiers [pre], one after the other, make [u] of [v]. *)
  Inductive made : types -> value -> value -> Prop :=
  | made_none v : made [] v v
  | made_next pre m v u x fuel c w1 w2 : made pre v u -> c_val c = u -> m_transform (interp P fuel m) c w1 = (Ok x, w2) ->
      made (pre ++ [m]) v x.
  (** [comes ts m v u]: when the turn of the modifier [m] of [ts] comes, [v] has become [u]. *)
  Definition comes (ts : types) (m : mdf) (v u : value) : Prop :=
    exists pre post, ts = pre ++ m :: post /\ made pre v u.
  (** [into ts cls v d m]: [v] has become the dict [m], and is input for an object of class [cls]. *)
  Record into (ts : types) (v : value) (cls : string) (d : cdef) (m : list (string * value)) : Prop := {
    in_dict : exists cls', comes ts (MInstance cls') v (VDict m);
    in_class : In (MInstance cls) ts;
    in_def : p_ct P cls = Some d
  }.

  (** [given path names ts v a]: the input at the place [path] is [v], and the types [ts] are
      declared for it.  In [path] fields have their outside names, by the rules of the class
      [a] of the object that holds them or, for the fields of an object inside another, of
      that other object; in [names] they have their own. *)
  Inductive given : list karg -> list karg -> types -> value -> string -> Prop :=
  | gv_call : given [] [] [MInstance cls0] (VDict kw0) cls0
  | gv_field path names ts v a cls d m f u : given path names ts v a -> into ts v cls d m -> In f (cd_fields d) ->
      (input_of f m = Some u \/ u = VNone) ->
      given (path ++ [KStr (outname a (fl_name f))]) (names ++ [KStr (fl_name f)]) (fl_types f) u cls
  | gv_item path names ts v a it0 it l i u : given path names ts v a -> comes ts (MListOf it0) v (VList l) -> item_chain ts it ->
      nth_error l i = Some u -> given (path ++ [KInt (Z.of_nat i)]) (names ++ [KInt (Z.of_nat i)]) it u a
  | gv_entry path names ts v a it0 it l k u : given path names ts v a -> comes ts (MDictOf it0) v (VDict l) -> item_chain ts it ->
      In (k, u) l -> given (path ++ [KStr k]) (names ++ [KStr k]) it u a
  (** An object that is made for input inside the input is first made without input. *)
  | gv_made path names ts v a cls d m : given path names ts v a -> into ts v cls d m ->
      given [] [] [MInstance cls] (VDict []) cls.

  (** A modifier declared for the place [path] did not take the value that came to it, with
      the message [msg]: it raised, or, if an eager mark follows, it rejected what it made. *)
  Record refused (path : list karg) (msg : string) (ts : types) (v u : value) (m : mdf) (fuel : nat) (c : ctx) : Prop := {
    rf_place : exists names a, given path names ts v a;
    rf_value : c_val c = u;
    rf_path : c_fkr c = path;
    rf_turn : exists pre post, ts = pre ++ m :: post /\ made pre v u /\
      ((exists w1 l w2, m_transform (interp P fuel m) c w1 = (Err (EValidation l), w2) /\ In (skp path, msg) l) \/
       (In MEager post /\ exists x w1 w2 l w3, m_transform (interp P fuel m) c w1 = (Ok x, w2) /\
          m_validate (interp P fuel m) (nval c x) w2 = (Err (EValidation l), w3) /\ In (skp path, msg) l));
    rf_one : match m with MInstance _ | MListOf _ | MDictOf _ | MUnion _ => False | _ => True end
  }.

  (** The input at the place with the field names [names] is for an object and has the key
      [k], which is unknown and refused. *)
  Record unknown_key (names : list karg) (k : string) : Prop := {
    uk_given : exists path ts v a cls d m, given path names ts v a /\ into ts v cls d m /\
      In k (map fst m) /\ ~ allowed d k /\
      (f_strictness (fdef_of ts) = SStrict \/ (f_strictness (fdef_of ts) = SUndefined /\ cd_strict d = true))
  }.
End InErr.
