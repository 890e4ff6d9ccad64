(** SaveSpec.v -- what the theorems about guards, save and delete say: how one guard
    answers, how a list of guards decides, and the course of a save. *)
From Verif Require Import Base Mon PyDict Values TypesModel ObjModel IoModel.
Open Scope string_scope.
Open Scope list_scope.

Inductive verdict := Accept | Reject (message : string) | Raise (e : exn).
Definition outcome (v : verdict) : res unit :=
  match v with Accept => Ok tt | Reject m => Err (EUnauthorized m) | Raise e => Err e end.

Definition operator_of (w : world) (o : oid) : value := o_operator (wobj w o).

(** A callable of the given kind is called with the object and its operator. *)
Definition calls (P : program) (k : evkind) (f : cbid) (o : oid) (w : world) (r : res value) (w' : world) : Prop :=
  exists h, p_call P f (root_ctx o cfg0 w) [VObj o; operator_of w o] (w_heap w) = (r, h) /\
            w' = set_heap h (add_log (EvCall k f) w).

(** A chain given as a guard takes the object through its transform, then validates. *)
Definition chain_gives (P : program) (n : nat) (ts : types) (o : oid) (w : world) (r : res unit) (w' : world) : Prop :=
  exists w1,
    (let c := root_ctx o cfg0 w in
     match t_transform (interp P n) ts c (set_mg [] w) with
     | (Ok v, w0) => t_validate (interp P n) ts (nval c v) w0 = (r, w1)
     | (Err e, w0) => r = Err e /\ w1 = w0
     end) /\ w' = set_mg (w_mg w) w1.

Inductive answers (P : program) (n : nat) (o : oid) (a : action) : param -> world -> verdict -> world -> Prop :=
| an_yes : forall f w v w', calls P KGuard f o w (Ok v) w' -> v = VNone \/ v = VBool true ->
    answers P n o a (PCall f) w Accept w'
| an_message : forall f w s w', calls P KGuard f o w (Ok (VStr s)) w' ->
    answers P n o a (PCall f) w (Reject s) w'
| an_no : forall f w v w', calls P KGuard f o w (Ok v) w' -> v <> VNone -> v <> VBool true -> (forall s, v <> VStr s) ->
    answers P n o a (PCall f) w (Reject ("cannot " ++ action_name a)) w'
| an_raises : forall f w e w', calls P KGuard f o w (Err e) w' ->
    answers P n o a (PCall f) w (Raise e) w'
| an_valid : forall ts w w', chain_gives P n ts o w (Ok tt) w' ->
    answers P n o a (PTypes ts) w Accept w'
(** the chain rejects in its validation *)
| an_invalid : forall ts w v w0 msgs w1,
    t_transform (interp P n) ts (root_ctx o cfg0 w) (set_mg [] w) = (Ok v, w0) ->
    t_validate (interp P n) ts (nval (root_ctx o cfg0 w) v) w0 = (Err (EValidation msgs), w1) ->
    answers P n o a (PTypes ts) w (Reject ("cannot " ++ action_name a)) (set_mg (w_mg w) w1)
(** the chain raises: anything in its transform, other exceptions in its validation *)
| an_breaks : forall ts w e w', chain_gives P n ts o w (Err e) w' ->
    ((exists w0, t_transform (interp P n) ts (root_ctx o cfg0 w) (set_mg [] w) = (Err e, w0)) \/
     (forall msgs, e <> EValidation msgs)) ->
    answers P n o a (PTypes ts) w (Raise e) w'
| an_value : forall v w, answers P n o a (PVal v) w (Raise ETypeError) w.

(** The guards are asked in order, up to the first that does not accept. *)
Inductive asked (P : program) (n : nat) (o : oid) (a : action) : list param -> world -> verdict -> world -> Prop :=
| ask_none : forall w, asked P n o a [] w Accept w
| ask_next : forall p ps w w1 v w2,
    answers P n o a p w Accept w1 -> asked P n o a ps w1 v w2 -> asked P n o a (p :: ps) w v w2
| ask_stop : forall p ps w v w1,
    answers P n o a p w v w1 -> v <> Accept -> asked P n o a (p :: ps) w v w1.

(** The decision about an action on an object. *)
Inductive permission (P : program) (n : nat) (o : oid) (a : action) (w : world) : verdict -> world -> Prop :=
| pm_open : p_guards P (wclass w o) a = [] -> permission P n o a w Accept w
| pm_nobody : p_guards P (wclass w o) a <> [] -> operator_of w o = VNone ->
    permission P n o a w (Reject "no operator") w
| pm_asked : forall v w', p_guards P (wclass w o) a <> [] -> operator_of w o <> VNone ->
    asked P n o a (p_guards P (wclass w o) a) w v w' -> permission P n o a w v w'.

(** The hooks are run in order with the object and its operator, up to the first
    exception. *)
Inductive hooked (P : program) (o : oid) : list cbid -> world -> res unit -> world -> Prop :=
| hk_done : forall w, hooked P o [] w (Ok tt) w
| hk_next : forall f l w v w1 r w2,
    calls P KHook f o w (Ok v) w1 -> hooked P o l w1 r w2 -> hooked P o (f :: l) w r w2
| hk_stop : forall f l w e w1, calls P KHook f o w (Err e) w1 -> hooked P o (f :: l) w (Err e) w1.

(** The events between two states. *)
Definition since (w w' : world) (l : list event) : Prop := w_log w' = w_log w ++ l.

(** Events of guards: the callables given as guards, and those inside chains. *)
Definition guard_event (e : event) : Prop :=
  match e with EvCall KGuard _ | EvCall KValidate _ | EvCall KField _ => True | _ => False end.
Definition field_call (e : event) : Prop :=
  match e with EvCall KValidate _ | EvCall KField _ => True | _ => False end.
Definition save_call (e : event) : Prop :=
  match e with EvCall KValidate _ | EvCall KField _ | EvCall KSave _ => True | _ => False end.

Definition cu (w : world) (o : oid) : action := if o_new (wobj w o) then ACreate else AUpdate.

(** The stages of a save before the write: what happened up to the stage that ended, with
    the result of the stage, the state and the events so far. *)
Inductive stage := Guarding | Hooking | Validating | Setting.
Inductive course (P : program) (n : nat) (o : oid) (all skip : bool) (w : world)
  : stage -> res unit -> world -> list event -> Prop :=
| co_guards : forall v w1 l,
    permission P n o (cu w o) w v w1 -> since w w1 l -> Forall guard_event l ->
    course P n o all skip w Guarding (outcome v) w1 l
| co_hooks : forall w1 l hs r w2,
    course P n o all skip w Guarding (Ok tt) w1 l ->
    hooked P o (p_hooks P (wclass w1 o) (cu w1 o)) w1 r w2 ->
    since w1 w2 (map (EvCall KHook) hs) ->
    (exists rest, p_hooks P (wclass w1 o) (cu w1 o) = hs ++ rest /\ (r = Ok tt -> rest = [])) ->
    course P n o all skip w Hooking r w2 (l ++ map (EvCall KHook) hs)
| co_validate : forall w2 l r w3 lv,
    course P n o all skip w Hooking (Ok tt) w2 l -> skip = false ->
    validate P n o (Some all) w2 = (r, w3) -> since w2 w3 lv -> Forall field_call lv ->
    course P n o all skip w Validating r w3 (l ++ lv)
| co_skip : forall w2 l,
    course P n o all skip w Hooking (Ok tt) w2 l -> skip = true ->
    course P n o all skip w Validating (Ok tt) w2 l
| co_setters : forall w3 l r w4 ls,
    course P n o all skip w Validating (Ok tt) w3 l ->
    set_on_save P n o w3 = (r, w4) -> since w3 w4 ls -> Forall save_call ls ->
    course P n o all skip w Setting r w4 (l ++ ls).

(** Every second item of a list, from the first. *)
Fixpoint every_other {A} (l : list A) : list A :=
  match l with
  | [] => []
  | [x] => [x]
  | x :: _ :: rest => x :: every_other rest
  end.

(** The pool of the objects unlinked from a field of [o]; one round of the loop over it,
    in which an object is taken out and saved; and rounds that leave the rest of the pool
    alone. *)
Section Pool.
  Context (P : program) (saveit : oid -> st world unit) (o : oid) (name : string).
  Definition take_out (b : oid) : st world unit := liftH (del_unlinked (p_oeq P) o name (VObj b)).
  Definition round (b : oid) : st world unit := take_out b >> saveit b.
  Inductive calm : list oid -> world -> Prop :=
  | calm_nil : forall w, calm [] w
  | calm_stop : forall b l w e w2, round b w = (Err e, w2) -> calm (b :: l) w
  | calm_next : forall b l w w1 w2,
      take_out b w = (Ok tt, w1) -> saveit b w1 = (Ok tt, w2) ->
      pool w2 o name = pool w1 o name -> calm l w2 -> calm (b :: l) w.
End Pool.
