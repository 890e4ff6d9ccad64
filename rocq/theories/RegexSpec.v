(** RegexSpec.v -- what it means that a pattern matches, and which strings the modifiers
    securepw, hexcolor, email and url are documented or observed to accept. *)
From Verif Require Import Base PyStr RegexModel.
Open Scope nat_scope.
Open Scope list_scope.

(** [matches r before s after]: in the text [before ++ s ++ after] the pattern [r] matches
    the part [s]. *)
Definition word_char (c : ascii) : Prop := is_word c = true.
Definition ends_in_word (l : list ascii) : Prop := exists l' c, l = l' ++ [c] /\ word_char c.
Definition begins_in_word (l : list ascii) : Prop := exists c l', l = c :: l' /\ word_char c.

Inductive matches : rx -> list ascii -> list ascii -> list ascii -> Prop :=
| m_char : forall p c b a, p c = true -> matches (RChar p) b [c] a
| m_empty : forall b a, matches REmpty b [] a
| m_seq : forall x y b s t a,
    matches x b s (t ++ a) -> matches y (b ++ s) t a -> matches (RSeq x y) b (s ++ t) a
| m_left : forall x y b s a, matches x b s a -> matches (RAlt x y) b s a
| m_right : forall x y b s a, matches y b s a -> matches (RAlt x y) b s a
| m_none : forall x b a, matches (RStar x) b [] a
| m_more : forall x b s t a,
    matches x b s (t ++ a) -> matches (RStar x) (b ++ s) t a -> matches (RStar x) b (s ++ t) a
| m_start : forall a, matches RStart [] [] a
| m_end : forall b a, a = [] \/ a = [nl] -> matches REnd b [] a
| m_edge : forall b a,
    (ends_in_word b /\ ~ begins_in_word a) \/ (~ ends_in_word b /\ begins_in_word a) ->
    matches RWordEdge b [] a
| m_ahead : forall x b s a, matches x b s a -> matches (RAhead x) b [] (s ++ a).

(** The pattern matches some part of the string, or some part at its start. *)
Definition occurs_in (r : rx) (s : string) : Prop :=
  exists b m a, chars s = b ++ m ++ a /\ matches r b m a.
Definition occurs_at_start (r : rx) (s : string) : Prop :=
  exists m a, chars s = m ++ a /\ matches r [] m a.

(** ** Characters *)
Definition among (alphabet : string) (c : ascii) : Prop := In c (chars alphabet).
Definition all_among (alphabet s : string) : Prop := Forall (among alphabet) (chars s).
Definition has_one (alphabet s : string) : Prop := Exists (among alphabet) (chars s).
Definition lowers : string := "abcdefghijklmnopqrstuvwxyz".
Definition uppers : string := "ABCDEFGHIJKLMNOPQRSTUVWXYZ".
Definition digits : string := "0123456789".
Definition letters : string := lowers ++ uppers.
Definition alnums : string := letters ++ digits.
Definition newline : string := String nl EmptyString.
Definition one_line (s : string) : Prop := ~ In nl (chars s).

(** ** Colours *)
Definition hex_digits : string := digits ++ "abcdefABCDEF".
Definition hex_color (s : string) : Prop := String.length s = 6 /\ all_among hex_digits s.

(** ** Passwords: one line (a newline may follow) with a capital, a small letter, a digit
    and one of the listed symbols *)
Definition secure (s : string) : Prop :=
  exists line, (s = line \/ s = (line ++ newline)%string) /\ one_line line /\
    has_one uppers line /\ has_one lowers line /\ has_one digits line /\
    has_one symbols line.

(** ** Email addresses *)
Definition email_parts (local domain tld : string) : Prop :=
  local <> ""%string /\ all_among (alnums ++ "._%+-") local /\
  (exists c r, local = String c r /\ among (alnums ++ "_") c) /\
  domain <> ""%string /\ all_among (alnums ++ ".-") domain /\
  2 <= String.length tld /\ all_among (letters ++ "|") tld.

(** The address ends where a word ends or begins: a letter ends the address and no letter,
    digit or underscore follows; or a bar ends it and one of these follows. *)
Definition email_edge (tld rest : string) : Prop :=
  let follows := exists c r, rest = String c r /\ among (alnums ++ "_") c in
  (exists t c, tld = (t ++ String c "")%string /\ among letters c /\ ~ follows) \/
  (exists t, tld = (t ++ "|")%string /\ follows).

Definition begins_with_email (s : string) : Prop :=
  exists local domain tld rest,
    s = (local ++ "@" ++ domain ++ "." ++ tld ++ rest)%string /\
    email_parts local domain tld /\ email_edge tld rest.

(** ** Web addresses *)
Definition same_but_case (a b : string) : Prop := str_lower a = str_lower b.

(** 1 to 63 letters, digits and hyphens; no hyphen at the ends *)
Definition label (s : string) : Prop :=
  (exists c, s = String c "" /\ among alnums c) \/
  (exists c m d, s = (String c m ++ String d "")%string /\ among alnums c /\ among alnums d /\
     all_among (alnums ++ "-") m /\ String.length m <= 61).

Definition opt_dot (s : string) : Prop := s = ""%string \/ s = "."%string.

(** One or more labels, each followed by a dot, then two or more letters, digits and
    hyphens and possibly a dot *)
Definition domain_name (s : string) : Prop :=
  exists labels last dot,
    labels <> [] /\ Forall label labels /\
    2 <= String.length last /\ all_among (alnums ++ "-") last /\ opt_dot dot /\
    s = (fold_right (fun l r => l ++ "." ++ r) (last ++ dot) labels)%string.

(** 1 to 3 digits, four times *)
Definition number13 (s : string) : Prop :=
  1 <= String.length s <= 3 /\ all_among digits s.
Definition ip_address (s : string) : Prop :=
  exists a b c d, number13 a /\ number13 b /\ number13 c /\ number13 d /\
    s = (a ++ "." ++ b ++ "." ++ c ++ "." ++ d)%string.

Definition url_host (s : string) : Prop :=
  domain_name s \/ same_but_case "localhost" s \/ ip_address s.

Definition port_part (s : string) : Prop :=
  s = ""%string \/ exists d, s = (":" ++ d)%string /\ d <> ""%string /\ all_among digits d.

Definition no_space (s : string) : Prop := Forall (fun c => is_space c = false) (chars s).

Definition path_part (s : string) : Prop :=
  s = ""%string \/ s = "/"%string \/
  exists c r, s = String c r /\ among "/?" c /\ r <> ""%string /\ no_space r.

Definition url_text (s : string) : Prop :=
  exists scheme host port path,
    (same_but_case "http" scheme \/ same_but_case "https" scheme \/
     same_but_case "ftp" scheme \/ same_but_case "ftps" scheme) /\
    url_host host /\ port_part port /\ path_part path /\
    s = (scheme ++ "://" ++ host ++ port ++ path)%string.
