(** ClassSpec.v -- what a class definition is to hold, and which field is the other side of
    which, in terms of what the program has declared. *)
From Verif Require Import Base StrDict Values TypesModel ClassModel.

(** Field [f] refers to the class with number [b]. *)
Definition refers (s : state) (f : jfield) (b : nat) : Prop :=
  exists n, class_name f = Some n /\ sget n (s_graph s) = Some b.

(** [g], a field of another class, is declared as the other side of field [f] of class [a]:
    it refers to [a], and it is linked by the key that [f] stores, or [f] is linked by
    the key that [g] stores. *)
Definition declared (s : state) (a : nat) (f g : jfield) : Prop :=
  refers s g a /\
  match f_fstore (jf_fdef f) with
  | LocalKey => f_foreign_key (jf_fdef g) = Some (jf_name f)
  | ForeignKey => f_foreign_key (jf_fdef f) = Some (jf_name g)
  | _ => False
  end.

(** [r] is the first field of class [b] that is declared as the other side of [f] of class [a], if
    there is any. *)
Definition first_declared (s : state) (a : nat) (f : jfield) (b : nat) (r : option jfield) : Prop :=
  exists k, s_class s b = Some k /\
  match r with
  | Some g => exists l1 l2, k_fields k = l1 ++ g :: l2 /\ declared s a f g /\
                            forall x, In x l1 -> ~ declared s a f x
  | None => forall g, In g (k_fields k) -> ~ declared s a f g
  end.

(** No [Types] object is in fields of two classes. *)
Definition unshared (s : state) : Prop :=
  forall a b ka kb f g, s_class s a = Some ka -> s_class s b = Some kb ->
    In f (k_fields ka) -> In g (k_fields kb) -> jf_id f = jf_id g -> a = b.

(** Every class that a field of class [a] names is in the graph. *)
Definition known_classes (s : state) (a : nat) : Prop :=
  forall k f n, s_class s a = Some k -> In f (k_fields k) -> class_name f = Some n ->
    exists c, sget n (s_graph s) = Some c.

(** The class has been defined and the graph has it. *)
Definition defined (s : state) (a : nat) (k : classdef) : Prop :=
  s_class s a = Some k /\ sget (k_name k) (s_graph s) = Some a.

(** Fields with the same name are the same. *)
Definition distinct_names (fs : list dfield) : Prop := NoDup (map df_name fs).

(** What the user declared for a field: the types given with an equal sign, or else the
    annotation; a default value, if one is given. *)
Definition declared_types (f : dfield) : types :=
  match df_default f with ATypes _ ts => ts | _ => df_ann f end.
Definition declared_default (f : dfield) : given :=
  match df_default f with AValue v => GValue v | _ => GNone end.

Record as_declared (nm : naming) (f : dfield) (j : jfield) : Prop := {
  ad_name : jf_name j = df_name f;
  ad_types : fl_types (jf_field j) = declared_types f;
  ad_json : fl_json (jf_field j) = n_out nm (df_name f);
  ad_ref : fl_ref (jf_field j) = n_ref nm (df_name f) (declared_types f);
  ad_cref : fl_cref (jf_field j) = n_out nm (n_ref nm (df_name f) (declared_types f));
  ad_default : df_factory f = false -> jf_default j = declared_default f
}.

(** [r] is the last element of [l] that has property [P], if one has. *)
Definition last_such {A} (P : A -> Prop) (l : list A) (r : option A) : Prop :=
  match r with
  | Some x => exists l1 l2, l = l1 ++ x :: l2 /\ P x /\ forall y, In y l2 -> ~ P y
  | None => forall y, In y l -> ~ P y
  end.
(** [l'] lists the elements of [l] that have property [P], in order. *)
Inductive just {A} (P : A -> Prop) : list A -> list A -> Prop :=
| just_nil : just P [] []
| just_yes x l l' : P x -> just P l l' -> just P (x :: l) (x :: l')
| just_no x l l' : ~ P x -> just P l l' -> just P (x :: l) l'.

(** The fields that store the keys of what they refer to, and the fields linked through a
    join table. *)
Definition stores_keys (f : jfield) : Prop :=
  f_fstore (jf_fdef f) = LocalKey /\
  (f_ftype (jf_fdef f) = Some FTInstance \/ f_ftype (jf_fdef f) = Some FTList).
Definition joined (f : jfield) : Prop :=
  f_fstore (jf_fdef f) = ForeignKey /\ f_join_table (jf_fdef f) = Some true.

(** Class [o] is the last one that has the [Types] object [i] in a field. *)
Definition last_user (s : state) (i : tid) (o : nat) : Prop :=
  (exists k f, s_class s o = Some k /\ In f (k_fields k) /\ jf_id f = i) /\
  forall c k f, s_class s c = Some k -> In f (k_fields k) -> jf_id f = i -> (c <= o)%nat.

(** Field [f] of class [a] and field [g] of class [b] are declared as the two sides of a
    relation: one stores the key that the other is linked by, or each is linked
    through the other. *)
Definition linked_by (f g : jfield) : Prop :=
  f_fstore (jf_fdef f) = LocalKey /\ f_fstore (jf_fdef g) = ForeignKey /\
  f_foreign_key (jf_fdef g) = Some (jf_name f).
Definition linked_thru (f g : jfield) : Prop :=
  f_fstore (jf_fdef f) = ForeignKey /\ f_fstore (jf_fdef g) = ForeignKey /\
  f_foreign_key (jf_fdef g) = Some (jf_name f) /\ f_foreign_key (jf_fdef f) = Some (jf_name g).
Record two_sides (s : state) (a : nat) (f : jfield) (b : nat) (g : jfield) : Prop := {
  ts_f : refers s f b;
  ts_g : refers s g a;
  ts_link : linked_by f g \/ linked_by g f \/ linked_thru f g
}.
(** No third field is declared as the other side of one of the two, or has one of the
    two declared as its other side. *)
Definition no_third (s : state) (a : nat) (f : jfield) (b : nat) (g : jfield) : Prop :=
  forall kb x, s_class s b = Some kb -> In x (k_fields kb) ->
    declared s a f x \/ declared s b x f -> x = g.

(** The class table that the models of objects use, read off the state; [conf] has the
    settings of the classes. *)
Definition table (conf : classdef -> cdef) (s : state) (n : string) : option cdef :=
  match sget n (s_graph s) with
  | Some c => match s_class s c with
              | Some k => Some {| cd_name := k_name k; cd_fields := map jf_field (k_fields k);
                                  cd_abstract := cd_abstract (conf k); cd_reset_all := cd_reset_all (conf k);
                                  cd_strict := cd_strict (conf k); cd_validate_all := cd_validate_all (conf k);
                                  cd_output_null := cd_output_null (conf k); cd_outkey := cd_outkey (conf k) |}
              | None => None
              end
  | None => None
  end.
