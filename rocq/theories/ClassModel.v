(** ClassModel.v -- model of how classes come into being: jsonclasses/cdef.py (class
    CDef), jsonclasses/jfield.py (class JField), the part of jsonclasses/jsonclass.py
    that calls them, and the merging of inherited fields that the decorator
    [dataclass] of the standard library does.

    Two things about identity matter here and are modelled: classes are compared with
    [is] (cdef.py:280), and a [Types] object that a subclass inherits is the same
    object in both classes, with one [fdef] whose [_cdef] is assigned anew by every
    class that has the object in a field (cdef.py:76).

    Simplifications: there is one class graph; the types that annotations stand for are
    given ([rtypes] is modelled in RTypesModel.v), with the names in them already
    resolved, so that a class name that is in no graph fails for the field that
    uses it only; operator and authentication fields have no list here
    (their modifiers have no model). *)
From Verif Require Import Base StrDict Values TypesModel.

(** The identity of a [Types] object: written by the user, or made by [rtypes] from the
    annotation of a field for one class. *)
Inductive tid := Written (n : nat) | Made (c : nat) (name : string).
Definition tid_eqb (a b : tid) : bool :=
  match a, b with
  | Written x, Written y => Nat.eqb x y
  | Made x m, Made y n => Nat.eqb x y && String.eqb m n
  | _, _ => false
  end.

(** [dataclasses.Field.default]: MISSING, a [Types] object, any other value *)
Inductive written := Nothing | ATypes (id : nat) (ts : types) | AValue (v : value).
(** [dataclasses.Field]: the name, what [rtypes] makes of the annotation, the default
    and whether there is a default factory *)
Record dfield := { df_name : string; df_ann : types; df_default : written; df_factory : bool }.

(** What [JField.default] can be: None, a value, or the marker [dataclasses.MISSING] *)
Inductive given := GNone | GValue (v : value) | GMissing.

(** jfield.py:19-36; [jf_field] has the names that the strategies of the class give *)
Record jfield := { jf_field : field; jf_default : given; jf_id : tid }.
Definition jf_name (f : jfield) : string := fl_name (jf_field f).
Definition jf_fdef (f : jfield) : fdef := fl_fdef (jf_field f).

(** The naming strategies of the class (jconf.py): output_key_strategy,
    ref_name_strategy (applied to the name and the types of a field) *)
Record naming := { n_out : string -> string; n_ref : string -> types -> string }.

(** cdef.py:26-63: the attributes that [__init__] fills *)
Record classdef := {
  k_name : string;
  k_own : list dfield;                (* dataclass_fields(cls) *)
  k_fields : list jfield;             (* _list_fields, _tuple_fields *)
  k_dict : list (string * jfield);    (* _dict_fields *)
  k_primary : option jfield;
  k_calc : list jfield;
  k_setter : list jfield;
  k_deny : list jfield;
  k_nullify : list jfield;
  k_cascade : list jfield;
  k_unique : list jfield;
  k_names : list string;              (* _field_names *)
  k_jnames : list string;             (* _camelized_field_names *)
  k_operator : list jfield            (* _assign_operator_fields *)
}.

(** dataclasses.py (standard library) _process_class: the fields of the base class, then
    the fields of the class, in one dict by name *)
Definition inherit (base own : list dfield) : list dfield :=
  map snd (fold_left (fun d f => sset (df_name f) f d) own
             (fold_left (fun d f => sset (df_name f) f d) base [])).

(** cdef.py:67-75: the types and the default of a field.  [field.default ==
    field.default_factory] holds when both are MISSING. *)
Definition field_types (c : nat) (f : dfield) : tid * types * given :=
  match df_default f with
  | ATypes i ts => (Written i, ts, GNone)
  | Nothing => if df_factory f then (Made c (df_name f), df_ann f, GMissing)
               else (Made c (df_name f), df_ann f, GNone)
  | AValue v => (Made c (df_name f), df_ann f, GValue v)
  end.

Definition given_value (g : given) : value := match g with GValue v => v | _ => VNone end.

(** cdef.py:77, jfield.py:51-54, 165-167 *)
Definition make_field (nm : naming) (c : nat) (f : dfield) : jfield :=
  let '(i, ts, g) := field_types c f in
  {| jf_field := {| fl_name := df_name f; fl_json := n_out nm (df_name f);
                    fl_ref := n_ref nm (df_name f) ts;
                    fl_cref := n_out nm (n_ref nm (df_name f) ts);
                    fl_default := given_value g; fl_types := ts |};
     jf_default := g; jf_id := i |}.

Definition add (b : bool) (f : jfield) (l : list jfield) : list jfield := if b then l ++ [f] else l.

(** cdef.py:86-91 *)
Definition rule_is (r : deleterule) (j : jfield) : bool :=
  match f_delete_rule (jf_fdef j), r with
  | Some DDeny, DDeny | Some DNullify, DNullify | Some DCascade, DCascade => true
  | _, _ => false
  end.

(** fdef.py:168, asop_modifier.py:22-25, asopd_modifier.py:13-16: what sets
    [_requires_operator_assign] *)
Definition asks_operator (j : jfield) : bool :=
  existsb (fun m => match m with MAsop _ => true | _ => false end) (fl_types (jf_field j)).

(** cdef.py:64-96: one turn of the loop.  Simplified: the lists of authentication fields
    (97-100) are left out. *)
Definition class_step (nm : naming) (c : nat) (k : classdef) (f : dfield) : classdef :=
  let j := make_field nm c f in
  let d := jf_fdef j in
  {| k_name := k_name k;
     k_own := k_own k;
     k_fields := k_fields k ++ [j];
     k_dict := sset (df_name f) j (k_dict k);
     k_primary := if f_primary d then Some j else k_primary k;
     k_calc := add (match f_fstore d with Calculated => true | _ => false end) j (k_calc k);
     k_setter := add (match f_setter d with Some _ => true | None => false end) j (k_setter k);
     k_deny := add (rule_is DDeny j) j (k_deny k);
     k_nullify := add (rule_is DNullify j) j (k_nullify k);
     k_cascade := add (rule_is DCascade j) j (k_cascade k);
     k_unique := add (f_unique d) j (k_unique k);
     k_names := k_names k ++ [df_name f];
     k_jnames := k_jnames k ++ [n_out nm (df_name f)];
     k_operator := add (asks_operator j) j (k_operator k) |}.

(** cdef.py:26-100 CDef.__init__ *)
Definition class_init (nm : naming) (c : nat) (name : string) (fs : list dfield) : classdef :=
  fold_left (class_step nm c) fs
    {| k_name := name; k_own := fs; k_fields := []; k_dict := []; k_primary := None;
       k_calc := []; k_setter := []; k_deny := []; k_nullify := []; k_cascade := [];
       k_unique := []; k_names := []; k_jnames := []; k_operator := [] |}.

(** cdef.py:123-138 field_named *)
Definition k_named (n : string) (k : classdef) : res jfield :=
  match sget n (k_dict k) with Some f => Ok f | None => Err EValueError end.

(** cdef.py:306-337 _resolve_ref_names: the lists of names, the reference fields by
    name, and the two sets of names accepted in input. *)
Record refnames := {
  r_one : list string; r_one_json : list string;
  r_list : list string; r_list_json : list string;
  r_virtual : list string; r_virtual_json : list string;
  r_virtual_fields : list (string * jfield);
  r_map : list (string * jfield)
}.
Definition ref_step (r : refnames) (j : jfield) : refnames :=
  let n := fl_ref (jf_field j) in
  let jn := fl_cref (jf_field j) in
  match f_fstore (jf_fdef j) with
  | LocalKey =>
      match f_ftype (jf_fdef j) with
      | Some FTInstance =>
          {| r_one := r_one r ++ [n]; r_one_json := r_one_json r ++ [jn];
             r_list := r_list r; r_list_json := r_list_json r;
             r_virtual := r_virtual r; r_virtual_json := r_virtual_json r;
             r_virtual_fields := r_virtual_fields r; r_map := sset n j (r_map r) |}
      | Some FTList =>
          {| r_one := r_one r; r_one_json := r_one_json r;
             r_list := r_list r ++ [n]; r_list_json := r_list_json r ++ [jn];
             r_virtual := r_virtual r; r_virtual_json := r_virtual_json r;
             r_virtual_fields := r_virtual_fields r; r_map := sset n j (r_map r) |}
      | _ => r
      end
  | ForeignKey =>
      match f_join_table (jf_fdef j) with
      | Some true =>
          {| r_one := r_one r; r_one_json := r_one_json r;
             r_list := r_list r; r_list_json := r_list_json r;
             r_virtual := r_virtual r ++ [n]; r_virtual_json := r_virtual_json r ++ [jn];
             r_virtual_fields := sset n j (r_virtual_fields r); r_map := sset n j (r_map r) |}
      | _ => r
      end
  | _ => r
  end.
Definition ref_names (k : classdef) : refnames :=
  fold_left ref_step (k_fields k)
    {| r_one := []; r_one_json := []; r_list := []; r_list_json := []; r_virtual := [];
       r_virtual_json := []; r_virtual_fields := []; r_map := [] |}.
(** cdef.py:325-337, 242-250; sets, as lists *)
Definition k_available (k : classdef) : list string :=
  let r := ref_names k in
  k_names k ++ k_jnames k ++ r_one r ++ r_one_json r ++ r_list r ++ r_list_json r.
Definition k_update (k : classdef) : list string :=
  let r := ref_names k in k_names k ++ r_one r ++ r_list r.
(** cdef.py:272-274 rname_to_jfield *)
Definition rname_to_field (n : string) (k : classdef) : res jfield :=
  match sget n (r_map (ref_names k)) with Some f => Ok f | None => Err EKeyError end.

(** ** The program that defines classes and looks fields up *)

(** Classes are numbered in the order in which they are made.  [s_owner] is [_cdef] of the
    [fdef] of a [Types] object; [s_graph] is the class graph; [s_other] holds what
    jfield.py:171-174 has kept of earlier look-ups, by class and field name. *)
Record state := {
  s_count : nat;
  s_owner : tid -> option nat;
  s_graph : list (string * nat);
  s_class : nat -> option classdef;
  s_other : nat -> string -> option (option jfield)
}.
Definition start : state :=
  {| s_count := 0; s_owner := fun _ => None; s_graph := []; s_class := fun _ => None;
     s_other := fun _ _ => None |}.

(** jfield.py:103-113 foreign_class; fdef.py:338-374 item_types and inst_cls *)
Definition class_name (f : jfield) : option string := foreign_class (jf_field f).
Definition class_of (s : state) (f : jfield) : res (option nat) :=
  match class_name f with
  | None => Ok None
  | Some n => match sget n (s_graph s) with
              | Some c => Ok (Some c)
              | None => Err ENotFound                       (* cgraph.py:97-115 fetch *)
              end
  end.

Definition opt_is (o : option nat) (c : nat) : bool :=
  match o with Some x => Nat.eqb x c | None => false end.

(** cdef.py:276-288 rfield *)
Fixpoint find_other (s : state) (fs : list jfield) (fcls : nat) (fname fkey : option string)
  : res (option jfield) :=
  match fs with
  | [] => Ok None
  | f :: fs' =>
      match class_of s f with
      | Err e => Err e
      | Ok o =>
          if opt_is o fcls
          then match fname with
               | Some n => if String.eqb (jf_name f) n then Ok (Some f)
                           else find_other s fs' fcls fname fkey
               | None => match fkey with
                         | Some k => if eq_opt_str (f_foreign_key (jf_fdef f)) k then Ok (Some f)
                                     else find_other s fs' fcls fname fkey
                         | None => find_other s fs' fcls fname fkey
                         end
               end
          else find_other s fs' fcls fname fkey
      end
  end.

(** jfield.py:176-202 _do_resolve_foreign.  [self.fdef.cdef.cls] is the class that
    assigned [_cdef] last. *)
Definition look_up (s : state) (f : jfield) : res (option jfield) :=
  match f_fstore (jf_fdef f) with
  | LocalKey | ForeignKey =>
      match s_owner s (jf_id f) with
      | None => Err EAttributeError
      | Some scls =>
          match class_of s f with
          | Err e => Err e
          | Ok None => Ok None
          | Ok (Some fc) =>
              match s_class s fc with
              | None => Err EAttributeError
              | Some k =>
                  match f_fstore (jf_fdef f) with
                  | LocalKey => find_other s (k_fields k) scls None (Some (jf_name f))
                  | _ => find_other s (k_fields k) scls (f_foreign_key (jf_fdef f)) None
                  end
              end
          end
      end
  | _ => Ok None
  end.

(** jfield.py:93-98, 171-174 foreign_field of the field [n] of class [c] *)
Definition other (c : nat) (n : string) (s : state) : res (option jfield) * state :=
  match s_class s c with
  | None => (Err EAttributeError, s)
  | Some k =>
      match k_named n k with
      | Err e => (Err e, s)
      | Ok f =>
          match s_other s c n with
          | Some r => (Ok r, s)
          | None =>
              match look_up s f with
              | Err e => (Err e, s)
              | Ok r => (Ok r, {| s_count := s_count s; s_owner := s_owner s; s_graph := s_graph s;
                                  s_class := s_class s;
                                  s_other := fun c' n' => if Nat.eqb c' c && String.eqb n' n then Some r
                                                          else s_other s c' n' |})
              end
          end
      end
  end.

(** jsonclass.py:118-146, cdef.py:76, cgraph.py:81-95: the class is made and its fields
    take over their [Types] objects before the graph refuses a name it has. *)
Definition define (nm : naming) (name : string) (base : option nat) (own : list dfield) (s : state)
  : res nat * state :=
  let c := s_count s in
  let bfs := match base with
             | Some b => match s_class s b with Some k => k_own k | None => [] end
             | None => []
             end in
  let k := class_init nm c name (inherit bfs own) in
  let s1 := {| s_count := S c;
               s_owner := fun i => if existsb (fun f => tid_eqb i (jf_id f)) (k_fields k)
                                   then Some c else s_owner s i;
               s_graph := s_graph s;
               s_class := fun c' => if Nat.eqb c' c then Some k else s_class s c';
               s_other := s_other s |} in
  match sget name (s_graph s) with
  | Some _ => (Err ERedefinition, s1)
  | None => (Ok c, {| s_count := s_count s1; s_owner := s_owner s1;
                      s_graph := sset name c (s_graph s); s_class := s_class s1;
                      s_other := s_other s1 |})
  end.

(** A program: definitions of classes, and look-ups of the other side of fields, which
    every operation on linked fields makes. *)
Inductive step :=
| Define (nm : naming) (name : string) (base : option nat) (own : list dfield)
| Other (c : nat) (n : string).
Definition run_step (x : step) (s : state) : state :=
  match x with
  | Define nm n b own => snd (define nm n b own s)
  | Other c n => snd (other c n s)
  end.
Definition run_steps (xs : list step) (s : state) : state := fold_left (fun s x => run_step x s) xs s.
