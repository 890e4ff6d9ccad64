(** CGraphSpec.v -- the first registration of a name in a named graph. *)
From Verif Require Import Base CGraphModel.

(** the history registers [c] under the name [n] in graph [g], and nothing was
    registered under that name in that graph before *)
Definition first_class (h : list cop) (g n : string) (c : cdefn) : Prop :=
  exists before after, h = before ++ PutClass g c :: after /\ cd_name c = n /\
    forall c', In (PutClass g c') before -> cd_name c' <> n.

Definition first_enum (h : list cop) (g n : string) (e : enumc) : Prop :=
  exists before after, h = before ++ PutEnum g e :: after /\ en_name e = n /\
    forall e', In (PutEnum g e') before -> en_name e' <> n.

(** what a call answers when the history [h] came before it *)
Inductive answers (h : list cop) : cop -> res cout -> Prop :=
| a_fetch g n c : first_class h g n c -> answers h (FetchClass g n) (Ok (CClass c))
| a_fetch_none g n : (forall c, ~ first_class h g n c) -> answers h (FetchClass g n) (Err ENotFound)
| a_has g n c : first_class h g n c -> answers h (HasClass g n) (Ok (CBool true))
| a_has_none g n : (forall c, ~ first_class h g n c) -> answers h (HasClass g n) (Ok (CBool false))
| a_put g c : (forall c', ~ first_class h g (cd_name c) c') -> answers h (PutClass g c) (Ok CUnit)
| a_put_again g c c' : first_class h g (cd_name c) c' -> answers h (PutClass g c) (Err ERedefinition)
| a_fetche g n e : first_enum h g n e -> answers h (FetchEnum g n) (Ok (CEnum e))
| a_fetche_none g n : (forall e, ~ first_enum h g n e) -> answers h (FetchEnum g n) (Err ENotFound)
| a_hase g n e : first_enum h g n e -> answers h (HasEnum g n) (Ok (CBool true))
| a_hase_none g n : (forall e, ~ first_enum h g n e) -> answers h (HasEnum g n) (Ok (CBool false))
| a_pute g e : (forall e', ~ first_enum h g (en_name e) e') -> answers h (PutEnum g e) (Ok CUnit)
| a_pute_again g e e' x : first_enum h g (en_name e) e' ->
    x = ERedefinition \/ x = EAttributeError -> answers h (PutEnum g e) (Err x).
