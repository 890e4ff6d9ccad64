(** CalcModel.v -- calculated fields whose getter or setter is written with types, as in
    [types.getter(types.this.fval('a').mul(2)).setter(types.this.assign('a', types.passin.div(2)))].

    ObjModel.v and IoModel.v leave getters and setters to the program ([p_getter],
    [p_setter]); here they are given by pipelines, and the knot is tied: a pipeline reads and
    assigns attributes, among them calculated ones. [k] bounds how deeply calculated fields
    are nested (Python's recursion limit); beyond it stands RecursionError. *)
From Verif Require Import Base Mon KeypathModel Values ChainModel TypesModel ObjModel IoModel FetchModel OwnModel.
Open Scope string_scope.
Open Scope list_scope.

(** A step of a pipeline: one of the modifiers of IoModel.v ([this], [passin], arithmetic,
    ...), [fval(name)], [assign(name, a)]. *)
Inductive pstep :=
| PMod (m : mdf)
| PFval (name : string)
| PAssign (name : string) (a : parg)
(** what [assign] assigns: a value, what a function without parameters gives, or what types
    give (assign_modifier.py:14-20) *)
with parg :=
| AVal (v : value)
| AFun (f : cbid)
| APipe (ps : list pstep).

(** fdef.py getter and setter: a function or types *)
Inductive getdef := GFun (f : heap -> oid -> res value) | GPipe (ps : list pstep).
Inductive setdef := SFun (f : value -> oid -> st heap unit) | SPipe (ps : list pstep).

Section Pipe.
  Context (P : program).
  (** the depth to which modifiers hold others *)
  Context (n : nat).

  (** One step. Of [fval]: an [ObjRef] ends the pipeline (simplification: no other modifier
      but [isobj] can use one, see OwnModel.v).
      modifiers/assign_modifier.py:22-31, modifiers/fval_modifier.py:18-38 *)
  Fixpoint run_step (s : pstep) (c : ctx) (v : value) {struct s} : st world value :=
    match s with
    | PMod m => m_transform (interp P n m) (nval c v)
    | PFval name =>
        do* i <- liftH (fval (p_ct P) (p_getter P) name v);
        match i with IVal x => ret x | IRef _ _ => throw EAttributeError end
    | PAssign name a =>
        do* x <- match a with
                 | AVal x => ret x
                 | AFun f => liftH (p_call P f (nval c v) [])
                 | APipe ps =>
                     (fix pipe (ps : list pstep) (u : value) : st world value :=
                        match ps with
                        | [] => ret u
                        | s :: r => do* u' <- run_step s c u; pipe r u'
                        end) ps v
                 end;
        match v with
        | VObj o => setattr P o name x >> ret v
        | _ => throw EAttributeError
        end
    end.
  (** modifiers/chained_modifier.py transform, of a chain without eager marks
      (simplification) *)
  Fixpoint run_pipe (ps : list pstep) (c : ctx) (v : value) : st world value :=
    match ps with
    | [] => ret v
    | s :: r => do* u <- run_step s c v; run_pipe r c u
    end.

  Definition class_fdef (h : heap) (o : oid) : fdef := fdef_of [MInstance (o_class (h_obj h o))].
  (** a world with the given objects, for a call that has its own [MGraph] *)
  Definition world_of (h : heap) : world := {| w_heap := h; w_ext := fun _ => ext0; w_mg := []; w_log := [] |}.

  (** ctx.py:131-144 rootctxp; [e] is the name in messages *)
  Definition rootctxp (d : fdef) (operator : value) (o : oid) (name e : string) (passin : value) : ctx :=
    {| c_root := VObj o; c_owner := VObj o; c_parent := VObj o; c_holder := VNone;
       c_val := VNone; c_original := VObj o; c_cfg := cfg0;
       c_kr := [KStr name]; c_fkr := [KStr e]; c_ko := [KStr name]; c_kp := [KStr name]; c_kh := [KStr name];
       c_fdef := d; c_tag := None; c_operator := operator; c_idchain := []; c_passin := passin |}.

  (** jsonclassify.py:769-783 __getattribute__ of a calculated field. Simplification: a
      getter leaves the objects alone. *)
  Definition get_calc (g : getdef) (h : heap) (o : oid) : res value :=
    match g with
    | GFun f => f h o
    | GPipe ps =>
        let c := rootctx (class_fdef h o) (o_operator (h_obj h o)) o cfg0 (VObj o) in
        fst (run_pipe ps c (VObj o) (world_of h))
    end.
  (** jsonclassify.py:716-725 __setattr__ of a calculated field *)
  Definition set_calc (s : setdef) (o : oid) (name : string) (v : value) : st heap unit :=
    match s with
    | SFun f => f v o
    | SPipe ps => fun h =>
        let c := rootctxp (class_fdef h o) (o_operator (h_obj h o)) o name (cd_outkey (cdef_of (p_ct P) h o) name) v in
        let '(r, w) := run_pipe ps c VNone (world_of h) in
        (match r with Ok _ => Ok tt | Err e => Err e end, w_heap w)
    end.
End Pipe.

(** The program [B] with the getters and setters of its classes *)
Section Knot.
  Context (B : program) (n : nat).
  Context (getters : string -> string -> option getdef) (setters : string -> string -> option setdef).

  Definition with_calc (g : heap -> oid -> string -> res value) (s : oid -> string -> value -> st heap unit) : program :=
    {| p_ct := p_ct B; p_oeq := p_oeq B; p_getter := g; p_setter := s; p_str := p_str B; p_arith := p_arith B;
       p_lim := p_lim B; p_isa := p_isa B; p_enums := p_enums B; p_call := p_call B; p_guards := p_guards B;
       p_hooks := p_hooks B; p_write := p_write B; p_delete := p_delete B |}.

  Definition getter_in (P : program) (h : heap) (o : oid) (name : string) : res value :=
    match getters (o_class (h_obj h o)) name with
    | Some g => get_calc P n g h o
    | None => Err EAttributeError
    end.
  Definition setter_in (P : program) (o : oid) (name : string) (v : value) : st heap unit :=
    fun h => match setters (o_class (h_obj h o)) name with
             | Some s => set_calc P n s o name v h
             | None => (Err EReadonlyCalc, h)
             end.

  Fixpoint calc_prog (k : nat) : program :=
    match k with
    | O => with_calc (fun _ _ _ => Err ERecursion) (fun _ _ _ => throw ERecursion)
    | S k' => with_calc (getter_in (calc_prog k')) (setter_in (calc_prog k'))
    end.
End Knot.
