(** Typographic symbols. *)
From Verif Require Import Str Unicode Regex RegexAuto SpecPlain.

Inductive symbol :=
| Times (a b : str) | Apostrophe (a b : str) | Decade (d : str) | Single (w : str) | Double (w : str) | Ellipsis (w : str)
| Ampersand | Joined (a b : str) | EmDash | EnDash | Trademark | Registered | Copyright | Half | Quarter | ThreeQuarters | Degree | PlusMinus.
Definition numeral (w : str) : Prop := w <> [] /\ forall c, In c w -> 48 <= c <= 57.
(** ASCII letters. *)
Definition small_word (w : str) : Prop := w <> [] /\ forall c, In c w -> 97 <= c <= 122.
Definition proper_symbol (s : symbol) : Prop :=
  match s with
  | Times a b => numeral a /\ numeral b
  | Apostrophe a b | Joined a b => small_word a /\ small_word b
  | Decade d => numeral d /\ (2 <= List.length d)%nat
  | Single w | Double w | Ellipsis w => small_word w
  | _ => True
  end.
(** What the author types. *)
Definition typed (s : symbol) : str :=
  match s with
  | Times a b => a ++ u "x" ++ b
  | Apostrophe a b => a ++ u "'" ++ b
  | Decade d => u "'" ++ d
  | Single w => u "'" ++ w ++ u "'"
  | Double w => u """" ++ w ++ u """"
  | Ellipsis w => w ++ u "..."
  | Ampersand => u "&"
  | Joined a b => a ++ u "&" ++ b
  | EmDash => u "--"
  | EnDash => u "-"
  | Trademark => u "(tm)"
  | Registered => u "(r)"
  | Copyright => u "(c)"
  | Half => u "(1/2)"
  | Quarter => u "(1/4)"
  | ThreeQuarters => u "(3/4)"
  | Degree => u "(o)"
  | PlusMinus => u "(+/-)"
  end.
(** What the reader gets: references to the characters U+00D7, U+2019, U+2018, U+201C, U+201D,
    U+2026, the ampersand, U+2014, U+2013, U+2122, U+00AE, U+00A9, U+00BD, U+00BC, U+00BE,
    U+00B0, U+00B1. *)
Definition shown (s : symbol) : str :=
  match s with
  | Times a b => a ++ u "&#215;" ++ b
  | Apostrophe a b => a ++ u "&#8217;" ++ b
  | Decade d => u "&#8217;" ++ d
  | Single w => u "&#8216;" ++ w ++ u "&#8217;"
  | Double w => u "&#8220;" ++ w ++ u "&#8221;"
  | Ellipsis w => w ++ u "&#8230;"
  | Ampersand => u "&amp;"
  | Joined a b => a ++ u "&amp;" ++ b
  | EmDash => u "&#8212;"
  | EnDash => u "&#8211;"
  | Trademark => u "&#8482;"
  | Registered => u "&#174;"
  | Copyright => u "&#169;"
  | Half => u "&#189;"
  | Quarter => u "&#188;"
  | ThreeQuarters => u "&#190;"
  | Degree => u "&#176;"
  | PlusMinus => u "&#177;"
  end.
(** Words that follow a symbol: the rest of a paragraph, not starting with an x. *)
Definition more_words : auto := mk_auto (au_trans paragraph) 8%nat (au_final paragraph).
(** Words, and symbols with words after them. *)
Definition with_symbols (form : symbol -> str) (first : str) (rest : list (symbol * str)) : str :=
  first ++ flat_map (fun p => u " " ++ form (fst p) ++ u " " ++ snd p) rest.
Definition proper_text (first : str) (rest : list (symbol * str)) : Prop :=
  accepts paragraph first /\ forall s w, In (s, w) rest -> proper_symbol s /\ accepts more_words w.
(** A paragraph: its source and its HTML. *)
Definition symbols := (str * list (symbol * str))%type.
Definition symbols_text (p : symbols) : str := with_symbols typed (fst p) (snd p).
Definition symbols_html (br : str) (p : symbols) : str := element (u "p") (breaks br (with_symbols shown (fst p) (snd p))).
