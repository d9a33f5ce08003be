(** Documents of plain blocks and what a parser shows for them. *)
From Verif Require Import Str ModelBase SpecPlain.

(** Settings under which blocks are recognised and nothing is cleaned afterwards, with a
    placeholder prefix made of digits and small letters other than x. *)
Definition ready (T : textile) : Prop :=
  simple_uid (t_uid T) /\ t_block_tags T = true /\ t_sanitize T = None.
(** A line break in the result. *)
Definition line_break (T : textile) : str :=
  match t_html T with XHTML => u "<br />" | HTML5 => u "<br>" end ++ [10].
(** The placeholder prefix does not occur in the text. *)
Definition token_free (T : textile) (t : str) : Prop := forall a b, t <> a ++ t_uid T ++ b.
(** A block that may occur in a document for these settings. *)
Definition proper (T : textile) (b : plain_block) : Prop :=
  plain b /\ token_free T (content b) /\ (t_lite T = true -> lite_block b = true).
(** The blocks as the parser sees them. *)
Definition seen_blocks (T : textile) (bs : list plain_block) : list plain_block :=
  if t_restricted T then map restricted_block bs else bs.
