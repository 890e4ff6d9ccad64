(** JEnumModel.v -- the decorator jsonenum, on the class graphs of CGraphModel.v.

    What is decorated is a class (of any kind: only its name is looked at), None, or some
    other value. *)
From Verif Require Import Base CGraphModel.
Open Scope string_scope.
Open Scope list_scope.

Inductive darg := ANone | AClass (e : enumc) | AOther.

(** What jsonenum gives: the class, or the function [parametered_jsonenum], which remembers
    the name of the graph. *)
Inductive dres := RClass (e : enumc) | RDecorator (graph : string).

(** jsonenum.py:29-53 *)
Definition jsonenum (cls : darg) (graph : string) (m : gmap) : res dres * gmap :=
  match cls with
  | AOther => (Err EValueError, m)
  | AClass e =>
      match cg_step (PutEnum graph e) m with
      | (Ok _, m') => (Ok (RClass e), m')
      | (Err x, m') => (Err x, m')
      end
  | ANone => (Ok (RDecorator graph), m)
  end.

(** jsonenum.py:49-52, the call of what jsonenum gave; an enum class is not called here *)
Definition call_decorator (f : dres) (cls : darg) (m : gmap) : res dres * gmap :=
  match f with
  | RDecorator graph => jsonenum cls graph m
  | RClass _ => (Err ETypeError, m)
  end.

(** The ways to decorate: [@jsonenum], [jsonenum(cls, class_graph=g)] and
    [@jsonenum(class_graph=g)]; 'default' is the default of the parameter
    (jsonenum.py:31). *)
Inductive decoration :=
| Plain (a : darg)
| Direct (g : string) (a : darg)
| Called (g : string) (a : darg).

Definition decorate (d : decoration) (m : gmap) : res dres * gmap :=
  match d with
  | Plain a => jsonenum a "default" m
  | Direct g a => jsonenum a g m
  | Called g a =>
      match jsonenum ANone g m with
      | (Ok f, m1) => call_decorator f a m1
      | (Err e, m1) => (Err e, m1)
      end
  end.

(** A program that decorates one thing after the other and goes on after an exception *)
Definition decorate_all (ds : list decoration) : gmap := fold_left (fun m d => snd (decorate d m)) ds [].
