(** IoModel.v -- model of the code that moves data in and out of objects:
    jsonclasses/ctx.py, modifiers/instanceof_modifier.py, collection_type_modifier.py,
    listof_modifier.py, dictof_modifier.py, enum_modifier.py, union_modifier.py, the
    presence and callable modifiers, and the methods of jsonclassify.py that use them
    (__init__, set, update, validate, tojson, save, delete, opby and the guards).

    A [Types] chain is interpreted by [chain_*] of ChainModel.v over [interp].  The
    methods call each other without a structural measure, so [interp] has fuel;
    running out of it is Python's RecursionError.  [setattr] is [run] of ObjModel.v
    with the fuel [lim].

    Simplifications:
    - a callable gets all the arguments that the code can give it and ignores those it
      does not declare; it can change the objects but not the bookkeeping of a running
      call (the marks of [MGraph]);
    - a class has no subclasses with fields of their own: [isa] only decides
      [isinstance];
    - keypaths other than the ones the code reads (r, fr, o, p, h) are left out;
    - attributes of values that are not objects of JSON classes are missing;
    - a saved object's lists of unlinked objects are read again at each step of the loop
      over them (Python keeps the list it started with, and raises RuntimeError when a
      nested save adds a name). *)
From Verif Require Import Base Mon PyList PyDict OListModel ODictModel KeypathModel PyStr
  Values OGraphModel MGraphModel ChainModel TypesModel ObjModel.
From Verif Require LeafModel.
From Coq Require Import DecimalString.
Open Scope string_scope.
Open Scope list_scope.
Notation oid := Values.oid.

(** ** The state *)

(** jsonclassify.py:475-484: [_is_partial] and [_partial_picks] (169-190), [_is_deleted],
    [_link_keys], [_unlink_keys] *)
Record ext := {
  x_picks : option (list string);
  x_link : list (string * list value);
  x_unlink : list (string * list value)
}.
Definition ext0 : ext := {| x_picks := None; x_link := []; x_unlink := [] |}.

(** What a user can observe of a call besides its result: the callables that were
    called, by their place, and the writes to the store. *)
Inductive evkind := KGuard | KHook | KValidate | KSave | KField.
Inductive event := EvCall (k : evkind) (f : cbid) | EvWrite (o : oid) | EvDelete (o : oid).

(** The objects, the marks of the running call ([Ctx.mgraph]) and what was observed. *)
Record world := {
  w_heap : heap;
  w_ext : oid -> ext;
  w_mg : mgraph;
  w_log : list event
}.

Definition set_heap (h : heap) (w : world) : world :=
  {| w_heap := h; w_ext := w_ext w; w_mg := w_mg w; w_log := w_log w |}.
Definition set_mg (m : mgraph) (w : world) : world :=
  {| w_heap := w_heap w; w_ext := w_ext w; w_mg := m; w_log := w_log w |}.
Definition set_ext (o : oid) (f : ext -> ext) (w : world) : world :=
  {| w_heap := w_heap w;
     w_ext := fun x => if Nat.eqb x o then f (w_ext w o) else w_ext w x;
     w_mg := w_mg w; w_log := w_log w |}.
Definition add_log (e : event) (w : world) : world :=
  {| w_heap := w_heap w; w_ext := w_ext w; w_mg := w_mg w; w_log := w_log w ++ [e] |}.

Definition liftH {A} (m : st heap A) : st world A :=
  fun w => let '(r, h) := m (w_heap w) in (r, set_heap h w).
Definition getW {A} (f : world -> A) : st world A := fun w => (Ok (f w), w).
Definition modW (f : world -> world) : st world unit := fun w => (Ok tt, f w).

(** [try: m  except ValidationException as e: handler e] *)
Definition on_validation {A} (m : st world A) (handler : list (string * string) -> st world A)
  : st world A :=
  fun w => match m w with
           | (Err (EValidation e), w') => handler e w'
           | r => r
           end.
(** [try: m  except: handler] *)
Definition on_any {A} (m : st world A) (handler : st world A) : st world A :=
  fun w => match m w with
           | (Err _, w') => handler w'
           | r => r
           end.

(** A call that makes its own [MGraph] (ctx.py:129). *)
Definition with_new_mgraph {A} (m : st world A) : st world A :=
  fun w => let '(r, w') := m (set_mg [] w) in (r, set_mg (w_mg w) w').

(** ** Contexts *)

(** ctx.py:14-36 CtxCfg *)
Record ctxcfg := {
  g_all : option bool;
  g_ignore_writeonly : bool;
  g_reverse : bool;
  g_fill : bool;
  g_output_null : option bool
}.
Definition cfg0 : ctxcfg :=
  {| g_all := None; g_ignore_writeonly := false; g_reverse := false; g_fill := false;
     g_output_null := None |}.

(** ctx.py:38-58 Ctx.  [c_tag] is the identity of [c_fdef] when it is the definition of
    a field: its class and name ([==] on definitions is identity). *)
Record ctx := {
  c_root : value; c_owner : value; c_parent : value; c_holder : value;
  c_val : value; c_original : value; c_cfg : ctxcfg;
  c_kr : list karg; c_fkr : list karg; c_ko : list karg; c_kp : list karg; c_kh : list karg;
  c_fdef : fdef; c_tag : option (string * string);
  c_operator : value; c_idchain : list string; c_passin : value
}.

(** ctx.py:119-129 rootctx *)
Definition rootctx (d : fdef) (operator : value) (o : oid) (cfg : ctxcfg) (v : value) : ctx :=
  {| c_root := VObj o; c_owner := VObj o; c_parent := VObj o; c_holder := VNone;
     c_val := match v with VNone => VObj o | _ => v end; c_original := VObj o; c_cfg := cfg;
     c_kr := []; c_fkr := []; c_ko := []; c_kp := []; c_kh := [];
     c_fdef := d; c_tag := None; c_operator := operator; c_idchain := []; c_passin := VNone |}.

(** ctx.py:146-152 alterfdef, which forgets [passin] *)
Definition alterfdef (c : ctx) (d : fdef) : ctx :=
  {| c_root := c_root c; c_owner := c_owner c; c_parent := c_parent c; c_holder := c_holder c;
     c_val := c_val c; c_original := c_original c; c_cfg := c_cfg c;
     c_kr := c_kr c; c_fkr := c_fkr c; c_ko := c_ko c; c_kp := c_kp c; c_kh := c_kh c;
     c_fdef := d; c_tag := None; c_operator := c_operator c; c_idchain := c_idchain c;
     c_passin := VNone |}.

(** ctx.py:154-164 nval *)
Definition nval (c : ctx) (v : value) : ctx :=
  {| c_root := c_root c; c_owner := c_owner c; c_parent := c_parent c; c_holder := c_holder c;
     c_val := v; c_original := c_original c; c_cfg := c_cfg c;
     c_kr := c_kr c; c_fkr := c_fkr c; c_ko := c_ko c; c_kp := c_kp c; c_kh := c_kh c;
     c_fdef := c_fdef c; c_tag := c_tag c; c_operator := c_operator c;
     c_idchain := c_idchain c; c_passin := c_passin c |}.

(** The definition of a field and its identity *)
Definition fld_tag (cls : string) (f : field) : option (string * string) := Some (cls, fl_name f).

(** ctx.py:166-181 nextv (no class [k]) and 196-211 nextvc (class [k]); [e] is the key
    after [output_key_strategy] *)
Definition nextv (c : ctx) (v : value) (key e : string) (d : fdef) (t : option (string * string))
                 (k : option string) : ctx :=
  {| c_root := c_root c; c_owner := c_owner c; c_parent := c_parent c; c_holder := c_holder c;
     c_val := v; c_original := VNone; c_cfg := c_cfg c;
     c_kr := c_kr c ++ [KStr key]; c_fkr := c_fkr c ++ [KStr e]; c_ko := c_ko c ++ [KStr key];
     c_kp := c_kp c ++ [KStr key]; c_kh := c_kh c ++ [KStr key];
     c_fdef := d; c_tag := t; c_operator := c_operator c;
     c_idchain := match k with Some k => c_idchain c ++ [k] | None => c_idchain c end;
     c_passin := c_passin c |}.

(** ctx.py:183-194 nexto (no class [k]) and 213-227 nextoc (class [k]) *)
Definition nexto (c : ctx) (v : value) (key e : string) (d : fdef) (t : option (string * string))
                 (k : option string) : ctx :=
  {| c_root := c_root c; c_owner := v; c_parent := v; c_holder := c_owner c;
     c_val := v; c_original := VNone; c_cfg := c_cfg c;
     c_kr := c_kr c ++ [KStr key]; c_fkr := c_fkr c ++ [KStr e]; c_ko := [];
     c_kp := []; c_kh := [KStr key];
     c_fdef := d; c_tag := t; c_operator := c_operator c;
     c_idchain := match k with Some k => c_idchain c ++ [k] | None => c_idchain c end;
     c_passin := c_passin c |}.

(** ctx.py:229-244 nextvo *)
Definition nextvo (c : ctx) (v : value) (key e : string) (d : fdef) (t : option (string * string))
                  (o : value) : ctx :=
  {| c_root := c_root c; c_owner := o; c_parent := c_parent c; c_holder := c_holder c;
     c_val := v; c_original := VNone; c_cfg := c_cfg c;
     c_kr := c_kr c ++ [KStr key]; c_fkr := c_fkr c ++ [KStr e]; c_ko := c_ko c ++ [KStr key];
     c_kp := c_kp c ++ [KStr key]; c_kh := c_kh c ++ [KStr key];
     c_fdef := d; c_tag := t; c_operator := c_operator c; c_idchain := c_idchain c;
     c_passin := c_passin c |}.

(** ctx.py:246-260 colval *)
Definition colval (c : ctx) (v : value) (key : karg) (d : fdef) (p : value) : ctx :=
  {| c_root := c_root c; c_owner := c_owner c; c_parent := p; c_holder := c_holder c;
     c_val := v; c_original := VNone; c_cfg := c_cfg c;
     c_kr := c_kr c ++ [key]; c_fkr := c_fkr c ++ [key]; c_ko := c_ko c ++ [key];
     c_kp := [key]; c_kh := c_kh c ++ [key];
     c_fdef := d; c_tag := None; c_operator := c_operator c; c_idchain := c_idchain c;
     c_passin := c_passin c |}.

(** ctx.py:262-276 default *)
Definition defaultctx (c : ctx) (owner : value) (key e : string) (d : fdef)
                      (t : option (string * string)) : ctx :=
  {| c_root := c_root c; c_owner := owner; c_parent := owner; c_holder := c_holder c;
     c_val := VNone; c_original := VNone; c_cfg := c_cfg c;
     c_kr := c_kr c ++ [KStr key]; c_fkr := c_fkr c ++ [KStr e]; c_ko := c_ko c ++ [KStr key];
     c_kp := c_kp c ++ [KStr key]; c_kh := c_kh c ++ [KStr key];
     c_fdef := d; c_tag := t; c_operator := c_operator c; c_idchain := c_idchain c;
     c_passin := c_passin c |}.

(** ctx.py:87-116 skeypathr and its siblings *)
Definition skp (l : list karg) : string := join "." (map str_of_karg l).

(** ctx.py:278-281 raise_vexc: the exception *)
Definition vexc (c : ctx) (msg : string) : exn := EValidation [(skp (c_fkr c), msg)].
Definition raise_vexc {A} (c : ctx) (msg : string) : st world A := throw (vexc c msg).

(** [l[-1]] and [l[0]] *)
Definition last_of {A} (l : list A) : res A :=
  match rev l with [] => Err EIndexError | x :: _ => Ok x end.
Definition first_of {A} (l : list A) : res A :=
  match l with [] => Err EIndexError | x :: _ => Ok x end.

(** [name in names] for a key of a keypath and a collection of names *)
Definition key_in (k : karg) (l : list string) : bool :=
  match k with KStr s => sinb s l | KInt _ => false end.

(** The class actions that guards protect, and the hooks (jconf.py). *)
Inductive action := ACreate | AUpdate | ADelete | ARead.
Definition action_name (a : action) : string :=
  match a with ACreate => "create" | AUpdate => "update" | ADelete => "delete" | ARead => "read" end.

(** ** The loop that collects messages (instanceof_modifier.py:47-66,
    collection_type_modifier.py:59-70): [pre x] decides whether [x] is checked *)
Fixpoint collect {X} (all : bool) (pre : X -> st world (option (st world unit))) (l : list X)
                 (msgs : list (string * string)) : st world (list (string * string)) :=
  match l with
  | [] => ret msgs
  | x :: r =>
      do* check <- pre x;
      match check with
      | None => collect all pre r msgs
      | Some m => fun w =>
          match m w with
          | (Ok _, w') => collect all pre r msgs w'
          | (Err (EValidation e), w') =>
              if all then collect all pre r (receive msgs e) w' else (Err (EValidation e), w')
          | (Err e, w') => (Err e, w')
          end
      end
  end.

(** What a program using the library provides: its classes; object equality; getters and
    setters of calculated fields (ObjModel.v); [str] of unusual values and float
    arithmetic (LeafModel.v); the recursion limit of attribute assignment; [isinstance]
    between classes; the members of enum classes with their values; its callables; the
    guards and hooks of a class (jconf.py); the store's write and delete
    (jsonclassify.py:561-566, replaced by a storage library). *)
Record program := {
  p_ct : string -> option cdef;
  p_oeq : heap -> oid -> oid -> bool;
  p_getter : heap -> oid -> string -> res value;
  p_setter : oid -> string -> value -> st heap unit;
  p_str : value -> string;
  p_arith : LeafModel.arith -> value -> value -> res value;
  p_lim : nat;
  p_isa : string -> string -> bool;
  p_enums : string -> option (list (string * value));
  p_call : cbid -> ctx -> list value -> st heap value;
  p_guards : string -> action -> list param;
  p_hooks : string -> action -> list cbid;
  p_write : oid -> st heap unit;
  p_delete : oid -> st heap unit
}.

Section Io.
  Context (P : program).
  Notation ct := (p_ct P).
  Notation oeq := (p_oeq P).
  Notation getter := (p_getter P).
  Notation setter := (p_setter P).
  Notation other_str := (p_str P).
  Notation farith := (p_arith P).
  Notation lim := (p_lim P).
  Notation isa := (p_isa P).
  Notation enums := (p_enums P).
  Notation ucb := (p_call P).
  Notation guards := (p_guards P).
  Notation hooks := (p_hooks P).
  Notation db_write := (p_write P).
  Notation db_delete := (p_delete P).

  Notation pystr := (LeafModel.py_str other_str).
  Notation modif := (modifier value ctx world).
  Definition all_on (c : ctx) : bool := match g_all (c_cfg c) with Some b => b | None => false end.

  (** ** Attributes *)
  Definition setattr (o : oid) (n : string) (v : value) : st world unit :=
    liftH (run ct oeq getter setter pystr lim (TSet o n v)).
  Definition getattr (o : oid) (n : string) : st world value :=
    liftH (ObjModel.getattr ct getter o n).
  Definition getattr_v (v : value) (n : string) : st world value :=
    match v with VObj o => getattr o n | _ => throw EAttributeError end.

  Definition wobj (w : world) (o : oid) : obj := h_obj (w_heap w) o.
  Definition wcdef (w : world) (o : oid) : cdef := cdef_of ct (w_heap w) o.
  Definition wclass (w : world) (o : oid) : string := o_class (wobj w o).

  (** [v.__class__.cdef], [v.is_new] and the like, for any value *)
  Definition the_obj (v : value) : st world oid :=
    match v with VObj o => ret o | _ => throw EAttributeError end.
  Definition cdef_v (v : value) : st world cdef :=
    do* o <- the_obj v; getW (fun w => wcdef w o).

  (** [fetch] of the class graph *)
  Definition class_named (c : string) : st world cdef :=
    match ct c with Some d => ret d | None => throw ENotFound end.

  (** fdef.py [inst_cls] *)
  Definition inst_cls (c : ctx) : st world string :=
    match f_inst (c_fdef c) with Some cls => ret cls | None => throw EAttributeError end.

  (** cdef.py:123-138 field_named *)
  Definition named (d : cdef) (n : string) : st world field :=
    match field_named n d with Some f => ret f | None => throw EValueError end.

  (** [self.owner.__class__.cdef.jconf.output_key_strategy(key)] *)
  Definition ekey (c : ctx) (key : string) : st world string :=
    do* d <- cdef_v (c_owner c); ret (cd_outkey d key).

  (** ** Marks: the primary key is read when the mark is made or looked up *)
  Definition pk_of (w : world) (o : oid) : option string :=
    match id_of ct (w_heap w) o with VNone => None | v => Some (pystr v) end.
  Definition cname_of (w : world) (o : oid) : string := o_class (h_obj (w_heap w) o).
  Definition mg_has (v : value) : st world bool :=
    do* o <- the_obj v; getW (fun w => m_has (cname_of w) o (pk_of w o) (w_mg w)).
  Definition mg_get (v : value) : st world (option oid) :=
    do* o <- the_obj v; getW (fun w => m_get (cname_of w) o (pk_of w o) (w_mg w)).
  Definition mg_put (o : oid) : st world unit :=
    modW (fun w => set_mg (m_put (cname_of w) o (pk_of w o) (w_mg w)) w).
  Definition mg_putp (pv : value) (o : oid) : st world unit :=
    modW (fun w => set_mg (m_putp (cname_of w) (pystr pv) o (w_mg w)) w).
  Definition mg_getp (cls : string) (pv : value) : st world (option oid) :=
    getW (fun w => m_getp cls (pystr pv) (w_mg w)).

  (** A user callable is called. *)
  Definition call (k : evkind) (f : cbid) (c : ctx) (args : list value) : st world value :=
    modW (add_log (EvCall k f)) >> liftH (ucb f c args).

  (** chained_modifier.py:80-81 *)
  Definition write_parent (c : ctx) (v : value) : st world unit :=
    match c_parent c with
    | VObj o => do* k <- lift (first_of (c_kp c)); setattr o (str_of_karg k) v
    | _ => ret tt
    end.

  (** [v is True], [v is None] *)
  Definition is_true (v : value) : bool := match v with VBool true => true | _ => false end.

  Section Rec.
    Context (rec : mdf -> modif).

    (** chained_modifier.py, the four operations of [types.modifier] *)
    Definition t_validate (ts : types) (c : ctx) : st world unit :=
      chain_validate all_on (map rec ts) c.
    Definition t_transform (ts : types) (c : ctx) : st world value :=
      chain_transform c_val nval (map rec ts) c.
    Definition t_tojson (ts : types) (c : ctx) : st world value :=
      chain_tojson c_val nval (map rec ts) c.
    Definition t_serialize (ts : types) (c : ctx) : st world value :=
      chain_serialize c_val nval write_parent (map rec ts) c.

    (** modifier.py:20-36 resolve_param *)
    Definition resolve (c : ctx) (p : param) : st world value :=
      match p with
      | PVal v => ret v
      | PCall f => call KField f c [c_owner c]
      | PTypes ts => t_transform ts (nval c VNone)
      end.

    (** [types.modifier.validate(ctx.nval(types.modifier.transform(ctx)))] with the
        transform outside the try of the caller *)
    Definition checked {A} (ts : types) (c : ctx) (good : st world A) (bad : st world A) : st world A :=
      do* tv <- t_transform ts c;
      do* valid <- on_validation (t_validate ts (nval c tv) >> ret true) (fun _ => ret false);
      if valid then good else bad.

    (** ** Presence *)

    (** required_modifier.py:19-43.  The context always has a definition. *)
    Definition required_validate (c : ctx) : st world unit :=
      match f_fstore (c_fdef c) with
      | ForeignKey => ret tt
      | LocalKey =>
          match c_val c with
          | VNone =>
              do* d <- cdef_v (c_holder c);
              do* ko <- lift (first_of (c_kh c));
              do* f <- named d (str_of_karg ko);
              do* o <- the_obj (c_holder c);
              fun w => match getattr o (fl_ref f) w with
                       | (Err EAttributeError, w') => raise_vexc c "value required" w'
                       | (Err e, w') => (Err e, w')
                       | (Ok v, w') => if is_none v then raise_vexc c "value required" w'
                                       else (Ok tt, w')
                       end
          | _ => ret tt
          end
      | _ => if is_none (c_val c) then raise_vexc c "value required" else ret tt
      end.

    (** present_modifier.py:20-22 *)
    Definition present_validate (c : ctx) : st world unit :=
      if is_none (c_val c) then raise_vexc c "value is not present" else ret tt.

    (** [getattr(ctx.owner, key)] where AttributeError becomes ValueError *)
    Definition referred (c : ctx) (key : string) : st world value :=
      fun w => match getattr_v (c_owner c) key w with
               | (Err EAttributeError, w') => (Err EValueError, w')
               | r => r
               end.

    (** presentwith_modifier.py:20-29 *)
    Definition presentwith_validate (key : string) (c : ctx) : st world unit :=
      if is_none (c_val c) then
        do* v <- referred c key;
        if is_none v then ret tt else raise_vexc c ("value is not present with '" ++ key ++ "'")
      else ret tt.

    (** presentwithout_modifier.py:23-36 (the message does not include the keys) *)
    Fixpoint presentwithout_loop (keys : list string) (c : ctx) : st world unit :=
      match keys with
      | [] => raise_vexc c "value is not present without"
      | k :: r => do* v <- referred c k;
                  if is_none v then presentwithout_loop r c else ret tt
      end.
    Definition presentwithout_validate (keys : list string) (c : ctx) : st world unit :=
      if is_none (c_val c) then presentwithout_loop keys c else ret tt.

    (** ** Callables *)

    (** default_modifier.py:16-22 *)
    Definition default_transform (p : param) (c : ctx) : st world value :=
      match c_val c with
      | VNone => match p with PCall f => call KField f c [] | _ => resolve c p end
      | v => ret v
      end.

    (** transform_modifier.py:26-36 *)
    Definition transform_transform (p : param) (c : ctx) : st world value :=
      match p with
      | PTypes ts => t_transform ts c
      | PCall f => if is_none (c_val c) then ret VNone else call KField f c [c_val c]
      | PVal _ => ret (c_val c)   (* refused at construction, lines 16-24 *)
      end.

    (** validate_modifier.py:24-47 *)
    Definition validate_validate (p : param) (msg : option string) (c : ctx) : st world unit :=
      let m := match msg with Some m => m | None => "invalid value" end in
      match p with
      | PTypes ts => checked ts c (ret tt) (raise_vexc c m)
      | PCall f =>
          if is_none (c_val c) then ret tt
          else do* r <- call KValidate f c [c_val c];
               match r with
               | VBool false => raise_vexc c m
               | VStr s => raise_vexc c (match msg with Some m => m | None => s end)
               | _ => ret tt
               end
      | PVal _ => ret tt
      end.

    (** oneisvalid_modifier.py:21-38; line 32 calls the builtin [callable], so a callable
        of one parameter gives False (a value is rarely callable) and one of two raises
        TypeError: the model takes the first case *)
    Fixpoint oneisvalid_loop (ps : list param) (c : ctx) : st world unit :=
      match ps with
      | [] => raise_vexc c "none is valid"
      | PTypes ts :: r => checked ts c (ret tt) (oneisvalid_loop r c)
      | _ :: r => oneisvalid_loop r c
      end.

    (** filter_modifier.py:16-36 *)
    Fixpoint filter_loop (p : param) (c : ctx) (l : list value) : st world (list value) :=
      match l with
      | [] => ret []
      | v :: r =>
          do* keep <- match p with
                      | PTypes ts =>
                          do* tv <- t_transform ts (nval c v);
                          on_any (t_validate ts (nval c tv) >> ret true) (ret false)
                      | PCall f => do* x <- call KField f c [v]; ret (is_none x || is_true x)
                      | PVal _ => throw ETypeError
                      end;
          do* rest <- filter_loop p c r;
          ret (if keep then v :: rest else rest)
      end.
    Definition filter_transform (p : param) (c : ctx) : st world value :=
      match c_val c with
      | VList l => do* l' <- filter_loop p c l; ret (VList l')
      | v => ret v
      end.

    (** map_modifier.py:16-23 *)
    Fixpoint map_loop (p : param) (c : ctx) (l : list value) : st world (list value) :=
      match l with
      | [] => ret []
      | v :: r =>
          do* x <- match p with
                   | PTypes ts => t_transform ts (nval c v)
                   | PCall f => call KField f c [v]
                   | PVal _ => throw ETypeError
                   end;
          do* rest <- map_loop p c r; ret (x :: rest)
      end.
    Definition map_transform (p : param) (c : ctx) : st world value :=
      match c_val c with
      | VList l => do* l' <- map_loop p c l; ret (VList l')
      | v => ret v
      end.

    (** at_modifier.py:16-19, [ctx.val[index]] *)
    Definition at_transform (p : param) (c : ctx) : st world value :=
      match c_val c with
      | VNone => ret VNone
      | v => do* i <- resolve c p;
             match v, i with
             | VList l, VInt z =>
                 match nth_error l (Z.to_nat (if (z <? 0)%Z then (z + zlen l)%Z else z)) with
                 | Some x => if ((- zlen l <=? z) && (z <? zlen l))%Z then ret x else throw EIndexError
                 | None => throw EIndexError
                 end
             | VStr s, VInt z =>
                 let k := Z.of_nat (String.length s) in
                 let j := if (z <? 0)%Z then (z + k)%Z else z in
                 if ((0 <=? j) && (j <? k))%Z then ret (VStr (String.substring (Z.to_nat j) 1 s))
                 else throw EIndexError
             | VDict d, VStr k => match sget k d with Some x => ret x | None => throw EKeyError end
             | _, _ => throw ETypeError
             end
      end.

    (** fmt_modifier.py:25-36 *)
    Definition fmt_tojson (p : param) (c : ctx) : st world value :=
      match p with
      | PTypes ts => t_transform ts c
      | PCall f => if is_none (c_val c) then ret VNone else call KField f c [c_val c]
      | PVal _ => ret (c_val c)
      end.

    (** canr_modifier.py:20-52: a callable checker reads [self.op_callable], which does
        not exist *)
    Definition canr_tojson (p : param) (c : ctx) : st world value :=
      if is_none (c_operator c) then ret VNone
      else match p with
           | PTypes ts => checked ts c (ret (c_val c)) (ret VNone)
           | _ => throw EAttributeError
           end.

    (** cancu_modifier.py:20-50, canc_modifier.py:14-16, canu_modifier.py:14-16 *)
    Definition canw_validate (when_new : option bool) (p : param) (c : ctx) : st world unit :=
      let check :=
        if is_none (c_operator c) then raise_vexc c "operator not present"
        else match p with
             | PTypes ts => checked ts c (ret tt) (raise_vexc c "operation is not permitted")
             | _ => throw EAttributeError
             end in
      match when_new with
      | None => check
      | Some b => do* o <- the_obj (c_owner c);
                  do* isnew <- getW (fun w => o_new (wobj w o));
                  if Bool.eqb isnew b then check else ret tt
      end.

    (** isthis_modifier.py:12-20 *)
    Definition isthis_validate (c : ctx) : st world unit :=
      match c_val c with
      | VNone => raise_vexc c "none is not this"
      | VObj x =>
          match c_owner c with
          | VObj o =>
              do* same <- getW (fun w => Nat.eqb x o
                || (String.eqb (wclass w x) (wclass w o)
                    && eqv oeq (w_heap w) (id_of ct (w_heap w) x) (id_of ct (w_heap w) o)));
              if same then ret tt else raise_vexc c "value is not this"
          | _ => raise_vexc c "value is not this"
          end
      | _ => raise_vexc c "value is not this"
      end.

    (** isobjof_modifier.py:16-22 *)
    Definition isobjof_validate (cls : string) (c : ctx) : st world unit :=
      match c_val c with
      | VNone => raise_vexc c "none is not object of a class"
      | VObj x => do* ok <- getW (fun w => isa (wclass w x) cls);
                  if ok then ret tt else raise_vexc c "value is not instance of class"
      | _ => raise_vexc c "value is not instance of class"
      end.

    (** asop_modifier.py:28-33 = asopd_modifier.py:16-21 *)
    Definition asop_validate (c : ctx) : st world unit :=
      do* o <- the_obj (c_holder c);
      do* k <- lift (last_of (c_kr c));
      do* due <- getW (fun w => o_new (wobj w o) || key_in k (o_mfields (wobj w o)));
      if due then
        do* d <- cdef_v (c_holder c);
        do* f <- named d (str_of_karg k);
        do* v <- getattr o (fl_ref f);
        if is_none v then raise_vexc c "no operator being assigned" else ret tt
      else ret tt.

    (** setonsave_modifier.py:24-31 *)
    Definition setonsave_serialize (p : param) (c : ctx) : st world value :=
      match p with
      | PCall f => call KSave f c [c_val c]
      | PTypes ts => t_transform ts c
      | PVal _ => ret (c_val c)   (* refused at construction *)
      end.

    (** onsave_modifier.py:21-27 *)
    Definition onsave_serialize (f : cbid) (c : ctx) : st world value :=
      call KSave f c [c_val c] >> ret (c_val c).

    (** onwrite_modifier.py:23-36 *)
    Definition onwrite_serialize (f : cbid) (c : ctx) : st world value :=
      do* k <- lift (last_of (c_kp c));
      do* o <- the_obj (c_parent c);
      do* due <- getW (fun w => o_new (wobj w o) || key_in k (o_mfields (wobj w o)));
      if due then call KSave f c [c_val c] >> ret (c_val c) else ret (c_val c).

    (** The recorded previous value under a key *)
    Definition prev_of (k : karg) (b : obj) : option value :=
      match k with KStr s => sget s (o_prev b) | KInt _ => None end.

    (** onupdate_modifier.py:23-41 *)
    Definition onupdate_serialize (f : cbid) (c : ctx) : st world value :=
      do* k <- lift (last_of (c_kp c));
      do* o <- the_obj (c_parent c);
      do* pv <- getW (fun w => prev_of k (wobj w o));
      match pv with
      | None => ret (c_val c)
      | Some p => call KSave f c [p; c_val c] >> ret (c_val c)
      end.

    (** compare_modifier.py:22-39 *)
    Definition compare_validate (f : cbid) (c : ctx) : st world unit :=
      do* k <- lift (last_of (c_kp c));
      do* o <- the_obj (c_parent c);
      do* pv <- getW (fun w => prev_of k (wobj w o));
      match pv with
      | None => ret tt
      | Some p =>
          do* r <- call KValidate f c [p; c_val c];
          match r with
          | VBool true | VNone => ret tt
          | VBool false => raise_vexc c "compare failed"
          | v => raise_vexc c (pystr v)
          end
      end.

    (** ** Enums *)

    (** The members of an enum class, in order; a later member with an equal value is an
        alias of the first. *)
    Definition members (e : string) : st world (list (string * value)) :=
      match enums e with Some ms => ret ms | None => throw ENotFound end.
    (** [enum_class(v)] *)
    Definition member_by_value (ms : list (string * value)) (v : value) : option string :=
      match find (fun m => veq Nat.eqb (snd m) v) ms with Some m => Some (fst m) | None => None end.
    (** [enum_class[name]] *)
    Definition member_by_name (ms : list (string * value)) (n : string) : option string :=
      match sget n ms with
      | Some v => Some (match member_by_value ms v with Some m => m | None => n end)
      | None => None
      end.

    (** [isinstance(v, enum_class)] *)
    Definition is_member (e : string) (v : value) : bool :=
      match v with VEnum c _ => String.eqb c e | _ => false end.

    (** enum_modifier.py:28-56 *)
    Definition enum_transform (e : string) (c : ctx) : st world value :=
      match c_val c with
      | VNone => ret VNone
      | v =>
          do* ms <- members e;
          if is_member e v then ret v
          else
            let i := match f_enum_input (c_fdef c) with Some i => i | None => only_name end in
            if in_value i then
              ret (match member_by_value ms v with Some n => VEnum e n | None => VNone end)
            else match v with
                 | VStr s =>
                     match (if in_name i then member_by_name ms s else None) with
                     | Some n => ret (VEnum e n)
                     | None =>
                         match (if in_lname i then member_by_name ms (str_upper s) else None) with
                         | Some n => ret (VEnum e n)
                         | None => raise_vexc c "unknown enum value"
                         end
                     end
                 | _ => raise_vexc c "unknown enum value"
                 end
      end.

    (** enum_modifier.py:58-67 *)
    Definition enum_validate (e : string) (c : ctx) : st world unit :=
      match c_val c with
      | VNone => ret tt
      | v => members e >> if is_member e v then ret tt else raise_vexc c "invalid enum value"
      end.

    (** enum_modifier.py:69-78 *)
    Definition enum_tojson (c : ctx) : st world value :=
      match c_val c with
      | VNone => ret VNone
      | VEnum e n =>
          match f_enum_output (c_fdef c) with
          | Some OutValue =>
              do* ms <- members e;
              match sget n ms with Some v => ret v | None => throw EAttributeError end
          | Some OutName => ret (VStr n)
          | Some OutLname => ret (VStr (str_lower n))
          | None => ret VNone
          end
      | _ => match f_enum_output (c_fdef c) with Some _ => throw EAttributeError | None => ret VNone end
      end.

    (** ** Unions *)

    (** union_modifier.py:23-33: the bare [except] *)
    Fixpoint union_transform_loop (us : list types) (c : ctx) : st world value :=
      match us with
      | [] => ret (c_val c)
      | ts :: r => on_any (t_transform ts (alterfdef c (fdef_of ts))) (union_transform_loop r c)
      end.
    Definition union_transform (c : ctx) : st world value :=
      match c_val c with VNone => ret VNone | _ => union_transform_loop (f_union (c_fdef c)) c end.

    (** union_modifier.py:35-46 *)
    Fixpoint union_validate_loop (us : list types) (c : ctx) : st world unit :=
      match us with
      | [] => raise_vexc c "value is not of any provided type"
      | ts :: r => on_validation (t_validate ts (alterfdef c (fdef_of ts)))
                                 (fun _ => union_validate_loop r c)
      end.
    Definition union_validate (c : ctx) : st world unit :=
      match c_val c with VNone => ret tt | _ => union_validate_loop (f_union (c_fdef c)) c end.

    (** union_modifier.py:48-60 and 62-74 with [use] the operation after validation *)
    Fixpoint union_out_loop (use : types -> ctx -> st world value) (us : list types) (c : ctx)
      : st world value :=
      match us with
      | [] => ret VNone
      | ts :: r =>
          let nc := alterfdef c (fdef_of ts) in
          on_validation (t_validate ts nc >> use ts nc) (fun _ => union_out_loop use r c)
      end.
    Definition union_out (use : types -> ctx -> st world value) (c : ctx) : st world value :=
      match c_val c with VNone => ret VNone | _ => union_out_loop use (f_union (c_fdef c)) c end.

    (** ** Collections *)

    (** [ctx.fdef.item_types], whose attributes are read *)
    Definition items_of (c : ctx) : st world types :=
      match item_types (c_fdef c) with Some ts => ret ts | None => throw EAttributeError end.

    (** listof_modifier.py:24-25, dictof_modifier.py:18-19 *)
    Fixpoint enum_list (i : Z) (l : list value) : list (karg * value) :=
      match l with [] => [] | v :: r => (KInt i, v) :: enum_list (i + 1)%Z r end.
    Definition enum_dict (d : list (string * value)) : list (karg * value) :=
      map (fun kv => (KStr (fst kv), snd kv)) d.

    (** collection_type_modifier.py:51-70; [dict] tells a dict from a list *)
    Definition col_items (dict : bool) (v : value) : option (list (karg * value)) :=
      match v with
      | VList l => if dict then None else Some (enum_list 0 l)
      | VDict d => if dict then Some (enum_dict d) else None
      | _ => None
      end.
    Definition col_validate (dict : bool) (c : ctx) : st world unit :=
      match c_val c with
      | VNone => ret tt
      | v =>
          match col_items dict v with
          | None => raise_vexc c (if dict then "value is not dict" else "value is not list")
          | Some its =>
              do* d <- cdef_v (c_owner c);
              let all := match g_all (c_cfg c) with Some b => b | None => cd_validate_all d end in
              do* msgs <- collect all (fun kv =>
                  do* ts <- items_of c;
                  ret (Some (t_validate ts (colval c (snd kv) (fst kv) (fdef_of ts) v)))) its [];
              raise_collected msgs
          end
      end.

    Definition empty_col (dict : bool) : value := if dict then VDict [] else VList [].
    (** listof_modifier.py:30-31, dictof_modifier.py:24-25 append_value *)
    Definition append_value (k : karg) (v col : value) : value :=
      match col, k with
      | VList l, _ => VList (l ++ [v])
      | VDict d, KStr s => VDict (sset s v d)
      | _, _ => col
      end.

    (** listof_modifier.py:33-39 should_special_handle *)
    Definition special (dict : bool) (c : ctx) (v : value) : bool :=
      let d := c_fdef c in
      let jt := match f_join_table d with Some b => b | None => false end in
      negb dict &&
      ((fstore_eqb (f_fstore d) ForeignKey && jt) || fstore_eqb (f_fstore d) LocalKey) &&
      match v with VDict m => smem "_add" m || smem "_del" m | _ => false end.

    (** jsonclassify.py:492-506 _link_local_keys and _unlink_local_keys *)
    Definition local_key_op (o : oid) (fname : string) (add : bool) (k : value) : st world unit :=
      do* d <- getW (fun w => wcdef w o);
      do* f <- named d fname;
      do* cur <- getattr o (fl_ref f);
      if add then
        (if is_none cur then setattr o (fl_ref f) (VList []) else ret tt) >>
        liftH (run ct oeq getter setter pystr lim (TOp o (fl_ref f) [] (fl_ref f) (LAppend k)))
      else if is_none cur then ret tt
      else liftH (run ct oeq getter setter pystr lim (TOp o (fl_ref f) [] (fl_ref f) (LRemove k))).

    (** jsonclassify.py:508-517 _add_link_key and _add_unlink_key *)
    Definition link_key_op (o : oid) (fname : string) (add : bool) (k : value) : st world unit :=
      let put t := sset fname (match sget fname t with Some l => l ++ [k] | None => [k] end) t in
      modW (set_ext o (fun x =>
        if add then {| x_picks := x_picks x; x_link := put (x_link x); x_unlink := x_unlink x |}
        else {| x_picks := x_picks x; x_link := x_link x; x_unlink := put (x_unlink x) |})).

    (** listof_modifier.py:41-53 special_handle *)
    Definition special_handle (c : ctx) (v : value) : st world unit :=
      do* k <- lift (last_of (c_ko c));
      do* o <- the_obj (c_owner c);
      let op := if fstore_eqb (f_fstore (c_fdef c)) LocalKey then local_key_op else link_key_op in
      match v with
      | VDict m => match sget "_add" m with
                   | Some x => op o (str_of_karg k) true x
                   | None => match sget "_del" m with
                             | Some x => op o (str_of_karg k) false x
                             | None => ret tt
                             end
                   end
      | _ => ret tt
      end.

    (** collection_type_modifier.py:81-90, 97-104 and 111-118, one item; the keys are
        unchanged (dictof_modifier.py:27-31) but [ctx.owner.cdef] is read *)
    Definition col_item (use : types -> ctx -> st world value) (c : ctx) (v : value) (ts : types)
                        (acc : value) (kv : karg * value) : st world value :=
      do* x <- use ts (colval c (snd kv) (fst kv) (fdef_of ts) v);
      do* _ <- cdef_v (c_owner c);
      ret (append_value (fst kv) x acc).

    (** collection_type_modifier.py:72-90 *)
    Definition col_transform (dict : bool) (c : ctx) : st world value :=
      match c_val c with
      | VNone => ret (match f_collection_null (c_fdef c) with
                      | NNonnull => empty_col dict | _ => VNone end)
      | v =>
          match col_items dict v with
          | None => ret v
          | Some its =>
              fold_st (fun acc kv =>
                if special dict c (snd kv) then special_handle c (snd kv) >> ret acc
                else do* ts <- items_of c; col_item t_transform c v ts acc kv)
                its (empty_col dict)
          end
      end.

    (** collection_type_modifier.py:92-104 tojson and 106-118 serialize *)
    Definition col_out (use : types -> ctx -> st world value) (dict : bool) (c : ctx) : st world value :=
      match c_val c with
      | VNone => ret VNone
      | v =>
          match col_items dict v with
          | None => ret v
          | Some its =>
              fold_st (fun acc kv => do* ts <- items_of c; col_item use c v ts acc kv)
                      its (empty_col dict)
          end
      end.

    (** ** Objects *)

    (** instanceof_modifier.py:47-64, whether and how field [f] of [o] is checked *)
    Definition field_check (c : ctx) (o : oid) (only_modified : bool) (modified : list string)
                           (f : field) : st world (option (st world unit)) :=
      do* cls <- getW (fun w => wclass w o);
      do* fval <- getattr o (fl_name f);
      if fstore_eqb (f_fstore (fl_fdef f)) Embedded && only_modified
         && negb (sinb (fl_name f) modified)
      then ret None
      else ret (Some (
        do* e <- ekey c (fl_name f);
        let t := fld_tag cls f in
        let owner := match c_original c with VNone => VObj o | v => v end in
        t_validate (fl_types f)
          (if is_inst_field f then nexto c fval (fl_name f) e (fl_fdef f) t None
           else nextvo c fval (fl_name f) e (fl_fdef f) t owner))).

    (** instanceof_modifier.py:27-67 validate *)
    Definition inst_validate (c : ctx) : st world unit :=
      match c_val c with
      | VNone => ret tt
      | v =>
          do* seen <- mg_has v;
          if seen then ret tt
          else
            do* o <- the_obj v;
            mg_put o >>
            do* cls <- inst_cls c;
            do* d <- class_named cls;
            let all := match g_all (c_cfg c) with Some b => b | None => cd_validate_all d end in
            do* ok <- getW (fun w => isa (wclass w o) cls);
            if negb ok then raise_vexc c ("value is not instance of " ++ cls)
            else
              do* b <- getW (fun w => wobj w o);
              let only_modified := negb (o_new b) in
              let modified := if only_modified then initial_keypaths (o_mfields b) else [] in
              do* fs <- getW (fun w => cd_fields (wcdef w o));
              do* msgs <- collect all (field_check c o only_modified modified) fs [];
              raise_collected msgs
      end.

    (** instanceof_modifier.py:69-74 _strictness_check *)
    Definition strictness_check (c : ctx) (d : cdef) (keys : list string) : st world unit :=
      match find (fun k => negb (sinb k (available_names d))) keys with
      | Some k => throw (EValidation [(concat_keypath [KStr (skp (c_kr c)); KStr k], "key is not allowed")])
      | None => ret tt
      end.

    (** instanceof_modifier.py:76-82 _fill_default_value *)
    Definition fill_default (f : field) (o : oid) (c : ctx) : st world unit :=
      match fl_default f with
      | VNone =>
          do* e <- ekey c (fl_name f);
          do* cls <- getW (fun w => wclass w o);
          do* v <- t_transform (fl_types f)
                     (defaultctx c (c_original c) (fl_name f) e (fl_fdef f) (fld_tag cls f));
          setattr o (fl_name f) v
      | v => setattr o (fl_name f) v
      end.

    (** instanceof_modifier.py:84-91 *)
    Definition has_field_value (f : field) (m : list (string * value)) : bool :=
      smem (fl_json f) m || smem (fl_name f) m.
    Definition get_or_none (k : string) (m : list (string * value)) : value :=
      match sget k m with Some v => v | None => VNone end.
    Definition get_field_value (f : field) (m : list (string * value)) : value :=
      match get_or_none (fl_json f) m with VNone => get_or_none (fl_name f) m | v => v end.

    (** [cls()] (jsonclassify.py:30-56): a new object of class [cls] with the input
        [kwargs], whose compound keys are handled by the caller *)
    Definition fresh_obj (cls : string) : obj :=
      {| o_class := cls; o_attr := fun _ => None; o_new := true; o_modified := false;
         o_mfields := []; o_prev := []; o_lkeys := []; o_raw := []; o_unlinked := [];
         o_operator := VNone |}.
    (** jsonclassify.py:472-484 _set_initial_status *)
    Definition alloc (cls : string) (w : world) : oid * world :=
      let h := w_heap w in
      let o := h_next h in
      let '(i, g) := new_graph (h_graph h) [] in
      (o, set_ext o (fun _ => ext0) (set_heap
            {| h_obj := fun x => if Nat.eqb x o then fresh_obj cls else h_obj h x;
               h_next := Datatypes.S o; h_graph := point o i g |} w)).

    (** jsonclassify.py:39-50, one field *)
    Definition init_field (o : oid) (f : field) : st world unit :=
      (if is_calc f then ret tt else setattr o (fl_name f) VNone) >>
      if is_local f then
        liftH (updm o (fun b =>
          set_lkeys (sset (fl_ref f) (fl_name f) (o_lkeys b))
            (set_attr (fl_ref f) (if is_list_field f then VList [] else VNone) b)))
      else ret tt.

    (** jsonclassify.py:72-77 _set, with [self.__class__]'s definition *)
    Definition set_with (transform : ctx -> st world value) (o : oid) (kwargs : list (string * value))
                        (fill : bool) : st world unit :=
      do* cls <- getW (fun w => wclass w o);
      do* op <- getW (fun w => o_operator (wobj w o));
      with_new_mgraph (transform
        (rootctx (fdef_of [MInstance cls]) op o
           {| g_all := Some false; g_ignore_writeonly := false; g_reverse := false;
              g_fill := fill; g_output_null := None |} (VDict kwargs))) >> ret tt.

    (** jsonclassify.py:53-56: [self._graph.put(self)] unless it has no key *)
    Definition graph_put (o : oid) : st world unit :=
      modW (fun w =>
        let h := w_heap w in
        match g_put (cname_of w) (pk_of w) o (graph_at (h_graph h) (graph_of (h_graph h) o)) with
        | Ok g => set_heap (with_graph (set_graph (h_graph h) (graph_of (h_graph h) o) g) h) w
        | Err _ => w
        end).

    (** jsonclassify.py:30-52 without the compound keys and the graph *)
    Definition create (transform : ctx -> st world value) (cls : string)
                      (kwargs : list (string * value)) : st world oid :=
      do* d <- class_named cls;
      if cd_abstract d then throw EAbstract
      else
        do* o <- (fun w => let '(o, w') := alloc cls w in (Ok o, w'));
        for_st (cd_fields d) (init_field o) >>
        set_with transform o kwargs true >>
        ret o.

    Definition new_default (cls : string) : st world oid :=
      do* o <- create (m_transform (rec (MInstance cls))) cls [];
      graph_put o >> ret o.

    (** instanceof_modifier.py:102-127: the object to fill, and whether it was made
        earlier in this call *)
    Definition find_dest (c : ctx) (cls : string) (d : cdef) (m : list (string * value))
      : st world (oid * bool) :=
      let pv := match primary_field d with Some pf => get_or_none (fl_name pf) m | None => VNone end in
      match c_original c with
      | VNone =>
          if is_none pv then
            do* o <- new_default cls; mg_put o >> ret (o, false)
          else
            do* e <- mg_getp cls pv;
            match e with
            | Some o => ret (o, true)
            | None => do* o <- new_default cls; mg_putp pv o >> ret (o, false)
            end
      | v =>
          do* o <- the_obj v;
          (if is_none pv then ret tt else mg_putp pv o) >> ret (o, false)
      end.

    (** instanceof_modifier.py:140-157: a field the input does not name *)
    Definition absent_field (c : ctx) (m : list (string * value)) (o : oid) (soft : bool)
                            (f : field) (acc : list string) : st world (list string) :=
      let d := fl_fdef f in
      if is_ref d then
        let acc' := if is_list_field f && match f_collection_null d with NNonnull => true | _ => false end
                    then acc ++ [fl_name f] else acc in
        (if is_local f then
           (match get_or_none (fl_ref f) m with VNone => ret tt | v => setattr o (fl_ref f) v end) >>
           (match get_or_none (fl_cref f) m with VNone => ret tt | v => setattr o (fl_ref f) v end)
         else ret tt) >> ret acc'
      else
        (if g_fill (c_cfg c) && negb soft && negb (is_calc f) then fill_default f o c else ret tt)
        >> ret acc.

    (** instanceof_modifier.py:159-168: whether the field may be written *)
    Definition may_write (o : oid) (f : field) (v : value) : st world bool :=
      match f_write_rule (fl_fdef f) with
      | WriteUnlimited => ret true
      | NoWrite => ret false
      | WriteOnce => do* cur <- getattr o (fl_name f); ret (is_none cur)
      | WriteNonnull => ret (negb (is_none v))
      end.

    (** instanceof_modifier.py:139-177, one field *)
    Definition fill_field (c : ctx) (m : list (string * value)) (o : oid) (soft : bool)
                          (acc : list string) (f : field) : st world (list string) :=
      if has_field_value f m then
        let v := get_field_value f m in
        do* ok <- may_write o f v;
        (if ok then
           do* e <- ekey c (fl_name f);
           do* cls <- getW (fun w => wclass w o);
           do* x <- t_transform (fl_types f) (nextvo c v (fl_name f) e (fl_fdef f) (fld_tag cls f) (VObj o));
           if is_calc f then ret tt else setattr o (fl_name f) x
         else if g_fill (c_cfg c) && negb (is_calc f) then fill_default f o c
         else ret tt) >> ret acc
      else absent_field c m o soft f acc.

    (** instanceof_modifier.py:129-137: is unknown input refused *)
    Definition is_strict (c : ctx) (d : cdef) : bool :=
      match f_strictness (c_fdef c) with
      | SStrict => true | SUnstrict => false | SUndefined => cd_strict d
      end.

    (** instanceof_modifier.py:94-182 transform *)
    Definition inst_transform (c : ctx) : st world value :=
      match c_val c with
      | VNone => ret (c_original c)
      | VDict m =>
          do* cls <- inst_cls c;
          do* d <- class_named cls;
          do* (o, soft) <- find_dest c cls d m;
          do* od <- getW (fun w => wcdef w o);
          (if is_strict c d then strictness_check c od (map fst m) else ret tt) >>
          do* refs <- fold_st (fill_field c m o soft) (cd_fields od) [];
          for_st refs (fun n => do* cur <- getattr o n;
                                if is_none cur then setattr o n (VList []) else ret tt) >>
          ret (VObj o)
      | v => ret (match c_original c with VNone => v | x => x end)
      end.

    (** instanceof_modifier.py:200-208: is [f] the way back to where we came from *)
    Definition is_way_back (c : ctx) (cls : string) (f : field) : bool :=
      if g_reverse (c_cfg c) then false
      else match foreign_field ct cls f with
           | None => false
           | Some g =>
               match c_tag c, foreign_class f with
               | Some (tc, tn), Some fc => String.eqb tc fc && String.eqb tn (fl_name g)
               | _, _ => false
               end
               || match rev (c_kr c) with
                  | _ :: KStr k :: _ => String.eqb (fl_name g) k
                  | _ => false
                  end
           end.

    Definition picked (x : ext) (n : string) : bool :=
      match x_picks x with None => true | Some l => sinb n l end.

    (** instanceof_modifier.py:195-236, one field *)
    Definition json_field (c : ctx) (o : oid) (out_null : bool)
                          (acc : list (string * value)) (f : field) : st world (list (string * value)) :=
      do* cls <- getW (fun w => wclass w o);
      do* od <- getW (fun w => wcdef w o);
      do* x <- getW (fun w => w_ext w o);
      do* fval <- getattr o (fl_name f);
      let d := fl_fdef f in
      let back := is_way_back c cls f || sinb (cd_name od) (c_idchain c) in
      if is_local f && negb (picked x (fl_name f)) then ret acc
      else
        do* acc1 <- (if is_local f then
                       do* k <- getattr o (fl_ref f);
                       ret (if out_null || negb (is_none k) then sset (fl_cref f) k acc else acc)
                     else ret acc);
        if is_ref d && back then ret acc1
        else if match f_read_rule d with NoRead => negb (g_ignore_writeonly (c_cfg c)) | _ => false end
        then ret acc1
        else if fstore_eqb (f_fstore d) Temp then ret acc1
        else if negb (picked x (fl_name f)) then ret acc1
        else
          do* e <- ekey c (fl_name f);
          let t := fld_tag cls f in
          do* v <- t_tojson (fl_types f)
                     (if is_inst_field f then nexto c fval (fl_name f) e d t (Some (cd_name od))
                      else nextv c fval (fl_name f) e d t (Some (cd_name od)));
          ret (if out_null || negb (is_none v) then sset (fl_json f) v acc1 else acc1).

    (** instanceof_modifier.py:184-237 tojson *)
    Definition inst_tojson (c : ctx) : st world value :=
      match c_val c with
      | VNone => ret VNone
      | v =>
          do* o <- the_obj v;
          do* od <- getW (fun w => wcdef w o);
          let out_null := match g_output_null (c_cfg c) with Some b => b | None => cd_output_null od end in
          do* m <- fold_st (json_field c o out_null) (cd_fields od) [];
          ret (VDict m)
      end.

    Definition touched (b : obj) : bool := o_modified b || o_new b.

    (** instanceof_modifier.py:250-264, one field; the flag is [should_update] *)
    Definition save_field (c : ctx) (o : oid) (go : bool) (f : field) : st world bool :=
      let d := fl_fdef f in
      if is_ref d || is_inst d || go || f_force_set_on_save d then
        do* skip <- (if is_local f then
                       do* v <- getattr o (fl_name f);
                       if is_none v then do* k <- getattr o (fl_ref f); ret (negb (is_none k))
                       else ret false
                     else ret false);
        if skip then ret go
        else
          (if is_calc f then ret tt
           else
             do* v <- getattr o (fl_name f);
             do* e <- ekey c (fl_name f);
             do* cls <- getW (fun w => wclass w o);
             do* x <- t_serialize (fl_types f) (nextv c v (fl_name f) e d (fld_tag cls f) None);
             setattr o (fl_name f) x) >>
          do* t <- getW (fun w => touched (wobj w o));
          ret (t || go)
      else ret go.

    (** instanceof_modifier.py:239-265 serialize *)
    Definition inst_serialize (c : ctx) : st world value :=
      match c_val c with
      | VNone => ret VNone
      | v =>
          do* e <- mg_get v;
          match e with
          | Some _ => ret v
          | None =>
              do* o <- the_obj v;
              mg_put o >>
              do* t <- getW (fun w => touched (wobj w o));
              do* fs <- getW (fun w => cd_fields (wcdef w o));
              do* _ <- fold_st (save_field c o) fs t;
              ret v
          end
      end.

    (** ** The operations of each modifier *)
    Definition leaf_oeq (w : world) : oid -> oid -> bool := oeq (w_heap w).

    Definition validate_of (m : mdf) (c : ctx) : st world unit :=
      match m with
      | MLeaf l => fun w =>
          LeafModel.leaf_validate (leaf_oeq w) (resolve c) (vexc c) l (c_val c) w
      | MInstance _ => inst_validate c
      | MListOf _ => col_validate false c
      | MDictOf _ => col_validate true c
      | MUnion _ => union_validate c
      | MEnum e => enum_validate e c
      | MRequired => required_validate c
      | MPresent => present_validate c
      | MPresentwith k => presentwith_validate k c
      | MPresentwithout ks => presentwithout_validate ks c
      | MValidate p msg => validate_validate p msg c
      | MCompare f => compare_validate f c
      | MInvalid => raise_vexc c "value is invalid"   (* invalid_modifier.py:13-15 *)
      | MOneIsValid ps => oneisvalid_loop ps c
      | MCanWrite when_new p => canw_validate when_new p c
      | MIsthis => isthis_validate c
      | MIsobjof cls => isobjof_validate cls c
      | MAsop _ => asop_validate c
      | _ => ret tt                                   (* modifier.py:41-42 *)
      end.

    Definition transform_of (m : mdf) (c : ctx) : st world value :=
      match m with
      | MLeaf l => LeafModel.leaf_transform other_str farith (resolve c) (vexc c) l (c_val c)
      | MInstance _ => inst_transform c
      | MListOf _ => col_transform false c
      | MDictOf _ => col_transform true c
      | MUnion _ => union_transform c
      | MEnum e => enum_transform e c
      | MDefault p => default_transform p c
      | MTransform p => transform_transform p c
      | MFilter p => filter_transform p c
      | MMap p => map_transform p c
      | MAt p => at_transform p c
      | MThis => ret (c_owner c)                      (* this_modifier.py:12-13 *)
      | MPassin => ret (c_passin c)                   (* passin_modifier.py:12-13 *)
      | MGetop => ret (c_operator c)                  (* getop_modifier.py:13-14 *)
      | _ => ret (c_val c)                            (* modifier.py:44-46 *)
      end.

    Definition tojson_of (m : mdf) (c : ctx) : st world value :=
      match m with
      | MLeaf l => LeafModel.leaf_tojson l (c_val c)
      | MInstance _ => inst_tojson c
      | MListOf _ => col_out t_tojson false c
      | MDictOf _ => col_out t_tojson true c
      | MUnion _ => union_out t_tojson c
      | MEnum _ => enum_tojson c
      | MFmt p => fmt_tojson p c
      | MCanRead p => canr_tojson p c
      | _ => ret (c_val c)                            (* modifier.py:48-50 *)
      end.

    Definition serialize_of (m : mdf) (c : ctx) : st world value :=
      match m with
      | MInstance _ => inst_serialize c
      | MListOf _ => col_out t_serialize false c
      | MDictOf _ => col_out t_serialize true c
      | MUnion _ => union_out t_serialize c
      | MSetonsave p _ => setonsave_serialize p c
      | MOnsave f => onsave_serialize f c
      | MOnwrite f => onwrite_serialize f c
      | MOnupdate f => onupdate_serialize f c
      | _ => ret (c_val c)                            (* modifier.py:52-60 *)
      end.

    Definition kind_of (m : mdf) : mkind :=
      match m with MEager => KEager | MPreserialize => KPreserialize | _ => KOther end.

    Definition modif_of (m : mdf) : modif :=
      {| kind := kind_of m; m_validate := validate_of m; m_transform := transform_of m;
         m_tojson := tojson_of m; m_serialize := serialize_of m |}.
  End Rec.

  (** Out of fuel, every operation raises RecursionError. *)
  Fixpoint interp (n : nat) (m : mdf) : modif :=
    match n with
    | O => {| kind := kind_of m; m_validate := fun _ => throw ERecursion;
              m_transform := fun _ => throw ERecursion;
              m_tojson := fun _ => throw ERecursion; m_serialize := fun _ => throw ERecursion |}
    | Datatypes.S n' => modif_of (interp n') m
    end.

  (** ** The methods of an object; [n] is the fuel *)

  Definition root_ctx (o : oid) (cfg : ctxcfg) (w : world) : ctx :=
    rootctx (fdef_of [MInstance (wclass w o)]) (o_operator (wobj w o)) o cfg VNone.

  (** [InstanceOfModifier(self.__class__)] *)
  Definition self_mod (n : nat) (cls : string) : modif := interp n (MInstance cls).

  (** jsonclassify.py:72-77 _set *)
  Definition set_fields (n : nat) (o : oid) (kwargs : list (string * value)) (fill : bool) : st world unit :=
    do* cls <- getW (fun w => wclass w o);
    set_with (m_transform (self_mod n cls)) o kwargs fill.

  (** [int(s)] of decimal digits with an optional minus sign (simplification: no plus
      sign, spaces or underscores) *)
  Definition int_of (s : string) : res Z :=
    match NilZero.int_of_string s with Some i => Ok (Z.of_int i) | None => Err EValueError end.

  (** jsonclassify.py:89-117 _set_to_container for a value inside attribute [a] of [o]:
      [p] is where it is and [used] the keys that led to it.  Structural in the keys.
      The label of a nested list or dict is the keypath it has now. *)
  Fixpoint set_in_container (n : nat) (o : oid) (a : string) (p : path) (used : list string)
           (dest : value) (items : list string) (v : value) (d : fdef)
           (into_obj : oid -> list string -> value -> st world unit) : st world unit :=
    match f_ftype d with
    | Some FTInstance =>
        match dest with
        | VNone => throw EValueError
        | VObj x => into_obj x items v
        | _ => throw EAttributeError
        end
    | Some FTList =>
        match dest, items with
        | VNone, _ => throw EValueError
        | _, [] => throw EIndexError
        | VList l, [i] =>
            do* z <- lift (int_of i);
            liftH (run ct oeq getter setter pystr lim (TOp o a p (join "." used) (LSetInt z v)))
        | VList l, i :: rest =>
            match item_types d with
            | None => throw EAttributeError
            | Some it =>
                do* z <- lift (int_of i);
                let j := if (z <? 0)%Z then (z + zlen l)%Z else z in
                if ((0 <=? j) && (j <? zlen l))%Z then
                  match nth_error l (Z.to_nat j) with
                  | Some x => set_in_container n o a (p ++ [PIdx (Z.to_nat j)]) (used ++ [i]) x rest v
                                               (fdef_of it) into_obj
                  | None => throw EIndexError
                  end
                else throw EIndexError
            end
        | _, _ => throw ETypeError
        end
    | Some FTDict =>
        match dest, items with
        | VNone, _ => throw EValueError
        | _, [] => throw EIndexError
        | VDict m, [k] =>
            liftH (run ct oeq getter setter pystr lim (TDOp o a p (join "." used) (DSetItem k v)))
        | VDict m, k :: rest =>
            match item_types d with
            | None => throw EAttributeError
            | Some it =>
                match sget k m with
                | Some x => set_in_container n o a (p ++ [PKey k]) (used ++ [k]) x rest v
                                             (fdef_of it) into_obj
                | None => throw EKeyError
                end
            end
        | _, _ => throw ETypeError
        end
    | _ => ret tt
    end.

  (** jsonclassify.py:80-86 _keypath_set for one key already split, and 96-101 for an
      object on the way; [k] bounds the objects on the way *)
  Fixpoint keypath_set1 (n k : nat) (o : oid) (items : list string) (v : value) : st world unit :=
    match k, items with
    | O, _ => throw ERecursion
    | _, [] => throw EIndexError
    | Datatypes.S k', a :: rest =>
        do* dest <- getattr o a;
        do* d <- getW (fun w => wcdef w o);
        do* f <- named d a;
        set_in_container n o a [] [a] dest rest v (fl_fdef f)
          (fun x its v =>
             match its with
             | [i] => set_fields n x [(i, v)] false
             | _ => keypath_set1 n k' x (keypath_split (join "." its)) v
             end)
    end.

  (** jsonclassify.py:80-86 *)
  Definition keypath_set (n : nat) (o : oid) (kwargs : list (string * value)) : st world unit :=
    for_st kwargs (fun kv =>
      keypath_set1 n n o (keypath_split (fst kv)) (snd kv)).

  (** jsonclassify.py:30-56 __init__ *)
  Definition construct (n : nat) (cls : string) (kwargs : list (string * value)) : st world oid :=
    do* o <- create (m_transform (self_mod n cls)) cls (single_key_args kwargs);
    keypath_set n o (compound_key_args kwargs) >>
    graph_put o >> ret o.

  (** jsonclassify.py:59-69 set *)
  Definition jset (n : nat) (o : oid) (kwargs : list (string * value)) : st world unit :=
    set_fields n o (single_key_args kwargs) false >>
    keypath_set n o (compound_key_args kwargs).

  (** jsonclassify.py:120-139 update *)
  Definition update (o : oid) (kwargs : list (string * value)) : st world unit :=
    do* d <- getW (fun w => wcdef w o);
    if existsb (fun kv => negb (sinb (fst kv) (update_names d))) kwargs then throw EValueError
    else for_st kwargs (fun kv => setattr o (fst kv) (snd kv)).

  (** jsonclassify.py:192-207 validate *)
  Definition validate (n : nat) (o : oid) (all : option bool) : st world unit :=
    do* c <- getW (root_ctx o {| g_all := all; g_ignore_writeonly := false; g_reverse := false;
                                 g_fill := false; g_output_null := None |});
    do* cls <- getW (fun w => wclass w o);
    with_new_mgraph (m_validate (self_mod n cls) c).

  (** jsonclassify.py:210-222 is_valid *)
  Definition is_valid (n : nat) (o : oid) : st world bool :=
    on_validation (validate n o (Some false) >> ret true) (fun _ => ret false).

  (** jsonclassify.py:573-596 _can_cu_check_common, one callback *)
  Definition guard_one (n : nat) (o : oid) (a : action) (p : param) : st world unit :=
    match p with
    | PTypes ts =>
        do* c <- getW (root_ctx o cfg0);
        with_new_mgraph (checked (interp n) ts c (ret tt)
                           (throw (EUnauthorized ("cannot " ++ action_name a))))
    | PCall f =>
        do* op <- getW (fun w => o_operator (wobj w o));
        do* c <- getW (root_ctx o cfg0);
        do* r <- call KGuard f c [VObj o; op];
        if is_none r || is_true r then ret tt
        else match r with
             | VStr s => throw (EUnauthorized s)
             | _ => throw (EUnauthorized ("cannot " ++ action_name a))
             end
    | PVal _ => throw ETypeError
    end.

  (** jsonclassify.py:573-596 *)
  Definition guard (n : nat) (o : oid) (a : action) : st world unit :=
    do* cls <- getW (fun w => wclass w o);
    match guards cls a with
    | [] => ret tt
    | ps =>
        do* op <- getW (fun w => o_operator (wobj w o));
        if is_none op then throw (EUnauthorized "no operator")
        else for_st ps (guard_one n o a)
    end.

  (** jsonclassify.py:618-642: hooks of create, update and delete *)
  Definition run_hooks (o : oid) (a : action) : st world unit :=
    do* cls <- getW (fun w => wclass w o);
    for_st (hooks cls a) (fun f =>
      do* op <- getW (fun w => o_operator (wobj w o));
      do* c <- getW (root_ctx o cfg0);
      call KHook f c [VObj o; op] >> ret tt).

  (** jsonclassify.py:142-166 tojson *)
  Definition tojson (n : nat) (o : oid) (ignore_writeonly reverse : bool) (out_null : option bool)
    : st world value :=
    guard n o ARead >>
    do* c <- getW (root_ctx o {| g_all := None; g_ignore_writeonly := ignore_writeonly;
                                 g_reverse := reverse; g_fill := false; g_output_null := out_null |});
    do* cls <- getW (fun w => wclass w o);
    with_new_mgraph (m_tojson (self_mod n cls) c).

  (** jsonclassify.py:545-552 _set_on_save *)
  Definition set_on_save (n : nat) (o : oid) : st world unit :=
    do* c <- getW (root_ctx o cfg0);
    do* cls <- getW (fun w => wclass w o);
    with_new_mgraph (m_serialize (self_mod n cls) c) >> ret tt.

  Definition pool (w : world) (o : oid) (name : string) : list value :=
    match sget name (o_unlinked (wobj w o)) with Some l => l | None => [] end.

  (** jsonclassify.py:352-356: the item at place [i] is removed from the list that is
      being gone through, and saved.  [k] bounds the steps.  The names are those at the
      start; each list is read again at each step. *)
  Fixpoint save_pool (saveit : oid -> st world unit) (k : nat) (o : oid) (name : string) (i : nat)
    : st world unit :=
    match k with
    | O => ret tt
    | Datatypes.S k' =>
        do* l <- getW (fun w => pool w o name);
        match nth_error l i with
        | None => ret tt
        | Some x =>
            liftH (del_unlinked oeq o name x) >>
            (match x with VObj b => saveit b | _ => throw EAttributeError end) >>
            save_pool saveit k' o name (Datatypes.S i)
        end
    end.

  (** jsonclassify.py:338-358 save.  [_database_write] is the store's (559-560). *)
  Fixpoint save (n : nat) (o : oid) (all skip : bool) : st world unit :=
    match n with
    | O => throw ERecursion
    | Datatypes.S n' =>
        do* isnew <- getW (fun w => o_new (wobj w o));
        guard n o (if isnew then ACreate else AUpdate) >>
        do* isnew' <- getW (fun w => o_new (wobj w o));
        run_hooks o (if isnew' then ACreate else AUpdate) >>
        (if skip then ret tt else validate n o (Some all)) >>
        set_on_save n o >>
        modW (add_log (EvWrite o)) >> liftH (db_write o) >>
        do* names <- getW (fun w => map fst (o_unlinked (wobj w o)));
        for_st names (fun name =>
          do* l <- getW (fun w => pool w o name);
          save_pool (fun b => save n' b all skip) (length l) o name 0)
    end.

  (** jsonclassify.py:361-368 delete *)
  Definition delete (n : nat) (o : oid) : st world unit :=
    guard n o ADelete >>
    run_hooks o ADelete >>
    modW (add_log (EvDelete o)) >> liftH (db_delete o).

  (** fdef.py:168-169, asop_modifier.py:22-24, asopd_modifier.py:13-14: the fields to
      which [opby] assigns, with the transformer *)
  Definition asop_of (f : field) : option (option cbid) :=
    fold_left (fun acc m => match m with
                            | MAsop (Some t) => Some (Some t)
                            | MAsop None => Some (match acc with Some t => t | None => None end)
                            | _ => acc
                            end) (fl_types f) None.

  (** jsonclassify.py:225-251 opby *)
  Definition opby (o : oid) (op : value) : st world unit :=
    liftH (updm o (fun b => {| o_class := o_class b; o_attr := o_attr b; o_new := o_new b;
      o_modified := o_modified b; o_mfields := o_mfields b; o_prev := o_prev b;
      o_lkeys := o_lkeys b; o_raw := o_raw b; o_unlinked := o_unlinked b; o_operator := op |})) >>
    if is_none op then ret tt
    else
      do* b <- getW (fun w => wobj w o);
      if o_new b then
        do* d <- getW (fun w => wcdef w o);
        for_st (cd_fields d) (fun f =>
          match asop_of f with
          | None => ret tt
          | Some t =>
              do* c <- getW (root_ctx o cfg0);
              do* x <- (match t with
                        | Some t => call KField t c [op; VObj o]
                        | None => ret op
                        end);
              do* i <- liftH (vid ct x);
              setattr o (fl_ref f) i
          end)
      else ret tt.
End Io.
