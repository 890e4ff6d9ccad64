(** SubSpec.v -- what it means to replace the matches of a pattern in a text. *)
From Verif Require Import Base PyStr RegexModel RegexSpec.
Open Scope nat_scope.
Open Scope list_scope.

(** A text is cut into characters that are copied and parts that are replaced. *)
Inductive piece : Type :=
| Copied (c : ascii)
| Replaced (m : list ascii).

Definition piece_text (p : piece) : list ascii :=
  match p with Copied c => [c] | Replaced m => m end.
Definition text (ps : list piece) : list ascii := flat_map piece_text ps.

Definition piece_out (t : list ascii -> list ascii) (p : piece) : list ascii :=
  match p with Copied c => [c] | Replaced m => t m end.
Definition outcome (t : list ascii -> list ascii) (ps : list piece) : list ascii :=
  flat_map (piece_out t) ps.

(** An empty part was replaced last. *)
Definition empty_last (ps : list piece) : Prop := exists ps', ps = ps' ++ [Replaced []].

(** Reading from left to right, what comes behind [ps1] (with the text [rest] to go):
    - a replaced part is a match where it stands, and not a second empty one at one place;
    - where a character is copied, no match begins, other than an empty one when an empty
      part was replaced right before it;
    - the same at the end of the text. *)
Definition nothing_begins (r : rx) (ps1 : list piece) (rest : list ascii) : Prop :=
  forall m a, rest = m ++ a -> matches r (text ps1) m a -> m = [] /\ empty_last ps1.

Definition cut_right (r : rx) (ps : list piece) : Prop :=
  (forall ps1 m ps2, ps = ps1 ++ Replaced m :: ps2 ->
     matches r (text ps1) m (text ps2) /\ ~ (m = [] /\ empty_last ps1)) /\
  (forall ps1 c ps2, ps = ps1 ++ Copied c :: ps2 ->
     nothing_begins r ps1 (c :: text ps2)) /\
  nothing_begins r ps [].

(** [s'] is [s] with the matches of [r] replaced. *)
Definition substituted (r : rx) (t : list ascii -> list ascii) (s s' : string) : Prop :=
  exists ps, chars s = text ps /\ chars s' = outcome t ps /\ cut_right r ps.

(** The pattern reads runs of characters out of a class: [class+] *)
Definition all_in (p : ascii -> bool) (l : list ascii) : Prop :=
  Forall (fun c => p c = true) l.
Definition none_in (p : ascii -> bool) (l : list ascii) : Prop :=
  Forall (fun c => p c = false) l.

(** A text made of runs: each entry is characters outside the class and the run that
    follows them; characters outside the class end the text. *)
Definition run_text (runs : list (list ascii * list ascii)) (tail : list ascii) : list ascii :=
  flat_map (fun e => fst e ++ snd e) runs ++ tail.
Definition run_out (t : list ascii -> list ascii) (runs : list (list ascii * list ascii))
    (tail : list ascii) : list ascii :=
  flat_map (fun e => fst e ++ t (snd e)) runs ++ tail.
(** The runs are whole: none is empty, and between two there is something. *)
Definition whole_runs (p : ascii -> bool) (runs : list (list ascii * list ascii))
    (tail : list ascii) : Prop :=
  Forall (fun e => none_in p (fst e) /\ all_in p (snd e) /\ snd e <> []) runs /\
  Forall (fun e => fst e <> []) (tl runs) /\ none_in p tail.
