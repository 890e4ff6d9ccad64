(** CGraphModel.v -- model of jsonclasses/cgraph.py (class CGraph).

    A class definition and an enum class are a name and an identity.  The graph's
    default configuration is in JConfModel.v. *)
From Verif Require Import Base.

Record cdefn := { cd_name : string; cd_id : nat }.
(** [en_has_cls]: whether the enum class happens to have an attribute called [cls]. *)
Record enumc := { en_name : string; en_id : nat; en_has_cls : bool }.

(** cgraph.py:46-48 *)
Record cgraph := { g_map : list (string * cdefn); g_enums : list (string * enumc) }.

(** cgraph.py:23 [_graph_map]: graphs by name. *)
Definition gmap := list (string * cgraph).

(** cgraph.py:29-66, [CGraph(name)]: the shared graph of that name, created when missing. *)
Definition graph_named (n : string) (m : gmap) : cgraph * gmap :=
  match sget n m with
  | Some g => (g, m)
  | None => let g := {| g_map := []; g_enums := [] |} in (g, sset n g m)
  end.

(** cgraph.py:81-95 put *)
Definition cg_put (c : cdefn) (g : cgraph) : res cgraph :=
  match sget (cd_name c) (g_map g) with
  | Some _ => Err ERedefinition
  | None => Ok {| g_map := sset (cd_name c) c (g_map g); g_enums := g_enums g |}
  end.

(** cgraph.py:97-115 fetch; a class argument stands for its name *)
Definition cg_fetch (n : string) (g : cgraph) : res cdefn :=
  match sget n (g_map g) with Some c => Ok c | None => Err ENotFound end.

(** cgraph.py:117-131 has *)
Definition cg_has (n : string) (g : cgraph) : bool :=
  match sget n (g_map g) with Some _ => true | None => false end.

(** cgraph.py:133-148 put_enum.  Building the exception evaluates [exist_def.cls] on
    the enum class, which has no such attribute as a rule. *)
Definition cg_put_enum (e : enumc) (g : cgraph) : res cgraph :=
  match sget (en_name e) (g_enums g) with
  | Some e' => if en_has_cls e' then Err ERedefinition else Err EAttributeError
  | None => Ok {| g_map := g_map g; g_enums := sset (en_name e) e (g_enums g) |}
  end.

(** cgraph.py:150-168 fetch_enum *)
Definition cg_fetch_enum (n : string) (g : cgraph) : res enumc :=
  match sget n (g_enums g) with Some c => Ok c | None => Err ENotFound end.

(** cgraph.py:170-184 has_enum *)
Definition cg_has_enum (n : string) (g : cgraph) : bool :=
  match sget n (g_enums g) with Some _ => true | None => false end.

(** A program: calls on graphs looked up by name. *)
Inductive cop :=
| PutClass (g : string) (c : cdefn)
| FetchClass (g : string) (n : string)
| HasClass (g : string) (n : string)
| PutEnum (g : string) (e : enumc)
| FetchEnum (g : string) (n : string)
| HasEnum (g : string) (n : string).

Inductive cout := CUnit | CClass (c : cdefn) | CEnum (e : enumc) | CBool (b : bool).

Definition rmap {A B} (f : A -> B) (r : res A) : res B :=
  match r with Ok a => Ok (f a) | Err e => Err e end.

Definition cg_step (o : cop) (m : gmap) : res cout * gmap :=
  match o with
  | PutClass n c => let '(g, m1) := graph_named n m in
      match cg_put c g with
      | Ok g' => (Ok CUnit, sset n g' m1)
      | Err e => (Err e, m1)
      end
  | FetchClass n x => let '(g, m1) := graph_named n m in (rmap CClass (cg_fetch x g), m1)
  | HasClass n x => let '(g, m1) := graph_named n m in (Ok (CBool (cg_has x g)), m1)
  | PutEnum n e => let '(g, m1) := graph_named n m in
      match cg_put_enum e g with
      | Ok g' => (Ok CUnit, sset n g' m1)
      | Err x => (Err x, m1)
      end
  | FetchEnum n x => let '(g, m1) := graph_named n m in (rmap CEnum (cg_fetch_enum x g), m1)
  | HasEnum n x => let '(g, m1) := graph_named n m in (Ok (CBool (cg_has_enum x g)), m1)
  end.

Definition cg_run (os : list cop) (m : gmap) : gmap := fold_left (fun m o => snd (cg_step o m)) os m.
