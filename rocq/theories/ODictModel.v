(** ODictModel.v -- model of jsonclasses/odict.py (class OwnedDict).

    As for owned lists, each method returns its outcome, the new content and the
    owner calls, each with the content at the moment of the call.  Simplification:
    the owner only observes. *)
From Verif Require Import Base PyDict.

(** odict.py:13-22 *)
Inductive dcall (K V : Type) :=
| DWill                        (* __odict_will_change__(odict) *)
| DAdd (k : K) (v : V)         (* __odict_add__(odict, key, val) *)
| DDel (v : option V).         (* __odict_del__(odict, val); None is Python None *)
Arguments DWill {K V}. Arguments DAdd {K V}. Arguments DDel {K V}.

Section OwnedDict.
  Context {K V : Type} (keqb : K -> K -> bool) (none : V).
  Notation dict := (list (K * V)).

  Definition dev : Type := dcall K V * dict.
  Definition dres : Type := dout K V * dict * list dev.

  Definition ddels (vs : list V) (d : dict) : list dev := map (fun v => (DDel (Some v), d)) vs.
  Definition dadds (ps : list (K * V)) (d : dict) : list dev :=
    map (fun kv => (DAdd (fst kv) (snd kv), d)) ps.

  (** odict.py:50-55 *)
  Definition od_clear (d : dict) : dres :=
    (Ok RNothing, [], (DWill, d) :: ddels (map snd d) []).

  (** odict.py:57-69; with a wrong number of arguments line 60 raises TypeError. *)
  Definition od_pop (k : K) (dflt : option V) (d : dict) : dres :=
    match dget keqb k d with
    | Some v => let d' := ddel keqb k d in
                (Ok (RVal v), d', [(DWill, d); (DDel (Some v), d')])
    | None => match dflt with
              | Some x => (Ok (RVal x), d, [(DWill, d)])
              | None => (Err EKeyError, d, [(DWill, d)])
              end
    end.

  (** odict.py:71-75 *)
  Definition od_popitem (d : dict) : dres :=
    match last_item d with
    | Some (k, v) => let d' := removelast d in
                     (Ok (RItem k v), d', [(DWill, d); (DDel (Some v), d')])
    | None => (Err EKeyError, d, [(DWill, d)])
    end.

  (** odict.py:77-90: [will_set] is only computed when a default is given. *)
  Definition od_setdefault (k : K) (dflt : option V) (d : dict) : dres :=
    let will_set := match dflt with
                    | Some _ => negb (dmem keqb k d)
                    | None => false
                    end in
    let x := match dflt with Some x => x | None => none end in
    let '(r, d') := match dget keqb k d with
                    | Some v => (v, d)
                    | None => (x, dset keqb k x d)
                    end in
    (Ok (RVal r), d',
     if will_set then [(DWill, d); (DAdd k x, d')] else []).

  (** The values stored under the keys of [nd] (odict.py:104, 137). *)
  Definition items_to_del (nd d : dict) : list V :=
    map snd (filter (fun kv => dmem keqb (fst kv) nd) d).

  (** Lines 104-110: warn, [super().update], report. [d'] is the content after. *)
  Definition od_report (nd d d' : dict) : list dev :=
    (DWill, d) :: ddels (items_to_del nd d) d' ++ dadds nd d'.

  (** odict.py:92-110.  Line 99/101 builds the dict of new items, consuming a
      one-shot iterator, so that [super().update] at line 106 finds it empty; for a
      broken iterable it raises; for a non-iterable argument line 106 raises. *)
  Definition od_update (a : option (uarg K V)) (kw : list (K * V)) (d : dict) : dres :=
    match a with
    | None => let d' := dupdate keqb d kw in
              (Ok RNothing, d', od_report kw d d')
    | Some (UMany ps) =>
        let nd := dupdate keqb (dict_of keqb ps) kw in
        let d' := dupdate keqb (dupdate keqb d ps) kw in
        (Ok RNothing, d', od_report nd d d')
    | Some (UOnce ps) =>
        let nd := dupdate keqb (dict_of keqb ps) kw in
        let d' := dupdate keqb d kw in
        (Ok RNothing, d', od_report nd d d')
    | Some (UBroken ps) => (Err ETypeError, d, [])
    | Some UNot => (Err ETypeError, d, [(DWill, d)])
    end.

  (** odict.py:112-124 *)
  Definition od_setitem (k : K) (v : V) (d : dict) : dres :=
    let d' := dset keqb k v d in
    (Ok RNothing, d',
     (DWill, d) :: (match dget keqb k d with
                    | Some old => [(DDel (Some old), d')]
                    | None => []
                    end) ++ [(DAdd k v, d')]).

  (** odict.py:126-133 *)
  Definition od_delitem (k : K) (d : dict) : dres :=
    match dget keqb k d with
    | Some v => let d' := ddel keqb k d in
                (Ok RNothing, d', [(DWill, d); (DDel (Some v), d')])
    | None => (Err EKeyError, d, [(DWill, d)])
    end.

  (** odict.py:135-144 *)
  Definition od_ior (a : uarg K V) (d : dict) : dres :=
    match a with
    | UMany ps => let nd := dict_of keqb ps in
                  let d' := dupdate keqb d ps in
                  (Ok RNothing, d', od_report nd d d')
    | UOnce ps => (Ok RNothing, d, od_report (dict_of keqb ps) d d)
    | UBroken _ | UNot => (Err ETypeError, d, [])
    end.

  Definition owned_dstep (o : dop K V) (d : dict) : dres :=
    match o with
    | DSetItem k v => od_setitem k v d
    | DDelItem k => od_delitem k d
    | DPop k dflt => od_pop k dflt d
    | DPopArity => (Err ETypeError, d, [])
    | DPopItem => od_popitem d
    | DSetdefault k dflt => od_setdefault k dflt d
    | DUpdate a kw => od_update a kw d
    | DUpdateArity => (Err ETypeError, d, [])
    | DIor a => od_ior a d
    | DClear => od_clear d
    end.

  Fixpoint owned_drun (os : list (dop K V)) (d : dict)
    : list (dout K V) * dict * list dev :=
    match os with
    | [] => ([], d, [])
    | o :: os' =>
        let '(r, d1, es) := owned_dstep o d in
        let '(rs, d2, es') := owned_drun os' d1 in
        (r :: rs, d2, es ++ es')
    end.
End OwnedDict.
