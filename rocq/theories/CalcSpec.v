(** CalcSpec.v -- what assigning a field means, and what the steps of a pipeline give *)
From Verif Require Import Base Mon Values ChainModel TypesModel ObjModel IoModel CalcModel.
Open Scope string_scope.
Open Scope list_scope.

(** The steps [qs] make [r] of [v], wherever they are run, and change nothing. *)
Definition computes (P : program) (n : nat) (qs : list pstep) (v r : value) : Prop :=
  forall c w, run_pipe P n qs c v w = (Ok r, w).
(** They raise [e] and change nothing. *)
Definition raises (P : program) (n : nat) (qs : list pstep) (v : value) (e : exn) : Prop :=
  forall c w, run_pipe P n qs c v w = (Err e, w).

(** [b] names a field of [o] that keeps plain data: neither calculated nor a reference nor
    the stored key of a reference. *)
Record data_field (P : program) (h : heap) (o : oid) (b : string) : Prop := {
  da_field : exists f, ofield (p_ct P) h o b = Some f /\ is_calc f = false /\ is_ref (fl_fdef f) = false;
  da_there : attr h o b <> None;
  da_key : local_field_of h o b = None }.

(** [b] names a calculated field of [o]; it has a setter iff [s]. *)
Record calc_field (P : program) (h : heap) (o : oid) (b : string) (s : bool) : Prop := {
  ca_field : exists f, ofield (p_ct P) h o b = Some f /\ f_fstore (fl_fdef f) = Calculated
                       /\ (f_setter (fl_fdef f) = None <-> s = false);
  ca_key : local_field_of h o b = None }.

(** [r] equals, in Python's sense, what [o] keeps under [b]. *)
Definition holds (P : program) (h : heap) (o : oid) (b : string) (r : value) : Prop :=
  exists cur, attr h o b = Some cur /\ eqv (p_oeq P) h r cur = true.

(** [h'] is [h] after the assignment of [r] to the data field [b] of [o] alone. *)
Record assigned (P : program) (h : heap) (o : oid) (b : string) (r : value) (h' : heap) : Prop := {
  (** a value equal to the present one changes nothing; any other one is stored *)
  ad_same : holds P h o b r -> h' = h;
  ad_value : ~ holds P h o b r -> attr h' o b = Some r;
  (** nothing else has another value *)
  ad_attrs : forall a, a <> b -> attr h' o a = attr h o a;
  ad_objects : forall x, x <> o -> h_obj h' x = h_obj h x;
  ad_new : o_new (h_obj h' o) = o_new (h_obj h o);
  ad_class : o_class (h_obj h' o) = o_class (h_obj h o);
  ad_keys : o_lkeys (h_obj h' o) = o_lkeys (h_obj h o);
  (** of an object that is saved, the name [b] is listed as modified, and no other *)
  ad_listed : forall a, In a (o_mfields (h_obj h' o)) <->
    In a (o_mfields (h_obj h o)) \/ (a = b /\ o_new (h_obj h o) = false /\ ~ holds P h o b r);
  ad_modified : o_modified (h_obj h' o) = true <->
    o_modified (h_obj h o) = true \/ (o_new (h_obj h o) = false /\ ~ holds P h o b r) }.

(** The name of the field that a step reads *)
Definition reads (s : pstep) : option string := match s with PFval name => Some name | _ => None end.
(** The step assigns nothing, and the modifiers in it do not nest too deeply. *)
Definition settles (B : program) (n : nat) getters setters (s : pstep) : Prop :=
  match s with
  | PMod m => forall k c w, fst (m_transform (interp (calc_prog B n getters setters k) n m) c w) <> Err ERecursion
  | PFval _ => True
  | PAssign _ _ => False
  end.
(** No circles: the pipeline of a calculated field reads only names of a lower rank; and no
    calculated field bears the name of a stored key. *)
Record ranked (B : program) (n : nat) (getters : string -> string -> option getdef) setters
              (rank : string -> nat) : Prop := {
  ra_getters : forall cls name,
    match getters cls name with
    | None => True
    | Some (GFun f) => forall h o, f h o <> Err ERecursion
    | Some (GPipe ps) => forall s, In s ps ->
        settles B n getters setters s /\ forall a, reads s = Some a -> (rank a < rank name)%nat
    end;
  ra_keys : forall h o b f g, ofield (p_ct B) h o b = Some f -> f_fstore (fl_fdef f) = LocalKey ->
    ofield (p_ct B) h o (fl_ref f) = Some g -> is_calc g = false }.

(** A circle: each of these calculated fields of the class reads first another one (or
    itself). *)
Definition circle (B : program) (getters : string -> string -> option getdef) (h : heap) (o : oid)
                  (names : string -> Prop) : Prop :=
  forall a, names a ->
    calc_field B h o a false /\
    exists b rest, getters (o_class (h_obj h o)) a = Some (GPipe (PMod MThis :: PFval b :: rest)) /\ names b.

(** Setters lead from the assignment of [v] to [name] to that of [r] to the data field [b]:
    each is [types.this.assign(next, types.passin...)], and its steps compute the next value.
    [k] is the number of setters. *)
Inductive comes_to (B : program) (n : nat) getters (setters : string -> string -> option setdef) (h : heap) (o : oid) :
  nat -> string -> value -> string -> value -> Prop :=
| co_here k b r : data_field B h o b -> comes_to B n getters setters h o k b r b r
| co_next k name v next qs u b r :
    calc_field B h o name true ->
    setters (o_class (h_obj h o)) name = Some (SPipe [PMod MThis; PAssign next (APipe (PMod MPassin :: qs))]) ->
    computes (calc_prog B n getters setters k) n qs v u ->
    comes_to B n getters setters h o k next u b r ->
    comes_to B n getters setters h o (S k) name v b r.

(** Getters lead from reading [name] to the data field [b]: each is
    [types.this.fval(next)...]; of the value [x] kept there they make [u]. *)
Inductive comes_from (B : program) (n : nat) (getters : string -> string -> option getdef) setters (h : heap) (o : oid) :
  nat -> string -> value -> string -> value -> Prop :=
| cf_here k b x : data_field B h o b -> comes_from B n getters setters h o k b x b x
| cf_next k name u b x next qs y :
    (exists s, calc_field B h o name s) ->
    getters (o_class (h_obj h o)) name = Some (GPipe (PMod MThis :: PFval next :: qs)) ->
    comes_from B n getters setters h o k next y b x ->
    computes (calc_prog B n getters setters k) n qs y u ->
    comes_from B n getters setters h o (S k) name u b x.
