(** SubModel.v -- the modifier that replaces the matches of a regular expression.

    [ends] of RegexModel.v finds every place where a match can end but not in the order in
    which Python's [re] tries them.  Replacing needs that order, so this file has a second
    matcher that keeps it.  How a replacement text is read (its back references) is left
    open: it is a function from the matched text to the text put in its place. *)
From Verif Require Import Base Mon Values PyStr RegexModel.
Open Scope nat_scope.
Open Scope list_scope.

(** A star, as Python's [re] tries it: another round first, stopping here last.  A round that
    consumes nothing is the last one. *)
Fixpoint rounds (fuel : nat) (f : place -> list place) (pl : place) : list place :=
  match fuel with
  | O => []
  | S n => flat_map (fun q => if Nat.ltb (length (snd q)) (length (snd pl))
                              then rounds n f q else [q]) (f pl)
  end ++ [pl].

(** The places where a match that begins at the given place can end, in the order in which
    Python's [re] tries them *)
Fixpoint tries (r : rx) (pl : place) : list place :=
  match r with
  | RChar p =>
      match snd pl with
      | [] => []
      | c :: t => if p c then [(c :: fst pl, t)] else []
      end
  | REmpty => [pl]
  | RSeq a b => flat_map (tries b) (tries a pl)
  | RAlt a b => tries a pl ++ tries b pl
  | RStar a => rounds (length (snd pl)) (tries a) pl
  | RStart => match fst pl with [] => [pl] | _ => [] end
  | REnd => if at_end (snd pl) then [pl] else []
  | RWordEdge => if word_edge (fst pl) (snd pl) then [pl] else []
  | RAhead a => match tries a pl with [] => [] | _ => [pl] end
  end.

(** [re.sub] from a place on.  [adv] is true right behind an empty match: the next match may
    then not be empty (Python 3.7 and later). *)
Fixpoint sub_from (fuel : nat) (t : list ascii -> list ascii) (r : rx) (adv : bool)
    (b a : list ascii) : list ascii :=
  match fuel with
  | O => a
  | S n =>
      match find (fun q => negb adv || Nat.ltb (length (snd q)) (length a))
                 (tries r (b, a)) with
      | Some (b', a') =>
          t (firstn (length a - length a') a) ++
          sub_from n t r (Nat.eqb (length a') (length a)) b' a'
      | None =>
          match a with
          | [] => []
          | c :: a' => c :: sub_from n t r false (c :: b) a'
          end
      end
  end.

(** [re.sub(r, t, s)].  Two steps for each place suffice: one for an empty match there and one
    that moves on. *)
Definition re_sub (r : rx) (t : list ascii -> list ascii) (s : string) : string :=
  unchars (sub_from (2 * length (chars s) + 2) t r false [] (chars s)).

Section Replacer.
  Context {S P : Type}.
  Variable resolve : P -> st S value.
  (** [re.compile]; it raises [re.error] on a malformed pattern *)
  Variable compile : string -> res rx.
  (** Reading a replacement text for a pattern; it raises [re.error] if malformed. *)
  Variable template : rx -> string -> res (list ascii -> list ascii).

  (** modifiers/replacer_modifier.py:17-20.  A pattern or replacement that is not a string
      raises TypeError in [sub]; neither is used when the value is not a string. *)
  Definition t_replacer (reg rep : P) (v : value) : st S value :=
    do* x <- resolve reg;
    do* y <- resolve rep;
    match v with
    | VStr s =>
        match x, y with
        | VStr p, VStr q =>
            do* r <- lift (compile p);
            do* t <- lift (template r q);
            ret (VStr (re_sub r t s))
        | _, _ => throw ETypeError
        end
    | _ => ret v
    end.
End Replacer.
