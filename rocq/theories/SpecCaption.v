(** Captions of tables. *)
From Verif Require Import Str.
Definition caption_source (c rest : str) : str := u "|=. " ++ c ++ rest.
Definition caption_html (c : str) : str := nl ++ tab ++ u "<caption>" ++ trim c ++ u "</caption>" ++ nl.
(** What follows on the next lines is a row, unless it is blank. *)
Definition row_after (rest : str) : option str := match trim_start rest with [] => None | r => Some r end.
