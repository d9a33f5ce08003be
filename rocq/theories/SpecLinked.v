(** Paragraphs with links. *)
From Verif Require Import Str Unicode Regex RegexAuto ModelBase ModelUrl SpecPlain SpecText SpecDoc SpecSigned SpecCode SpecLinks.

(** ** A link: a text in double quotes, a colon, and an address *)
Record link := mk_link { ln_label : str; ln_url : str }.
Definition link_text (l : link) : str := u """" ++ ln_label l ++ u """:" ++ ln_url l.
(** The text of a link: one line of words, as in a paragraph. *)
Definition label : auto := mk_auto (au_trans paragraph) 1%nat [2; 3; 4; 5; 7; 9]%nat.
(** An address as it is written: the last character is no mark of punctuation. *)
Definition url_last : str := u "abcdefghijklmnopqrstuvwxyzABCDEFGHIJKLMNOPQRSTUVWXYZ0123456789/-_~%+=#$".
Definition url_chars : str := url_last ++ u ".:?,;!".
Definition written_url (x : str) : Prop := exists a c, x = a ++ [c] /\ In c url_last /\ forall d, In d a -> In d url_chars.
(** What an address stands for: an absolute one with an accepted scheme is printed as it was parsed, a text
    without tabs and line ends; a relative
    one, without a query and a fragment, as it is. *)
Definition target_of (W : world) (T : textile) (x y : str) : Prop :=
  (exists scheme, w_parse W x = Some (scheme, y) /\ In scheme (schemes (t_restricted T)) /\ ~ In 9 y /\ ~ In 10 y /\ ~ In 13 y) \/
  (w_parse W x = None /\ w_join W x <> None /\ ~ In 63 x /\ ~ In 35 x /\ y = x).
Definition link_ok (T : textile) (l : link) : Prop :=
  accepts label (ln_label l) /\ ~ In 10 (ln_label l) /\ written_url (ln_url l) /\ token_free T (ln_url l).
(** A value of [rel] as it is used: letters, digits, blanks, hyphens. *)
Definition rel_ok (T : textile) : Prop :=
  forall r, t_rel T = Some r -> forall c, In c r -> In c (u "abcdefghijklmnopqrstuvwxyzABCDEFGHIJKLMNOPQRSTUVWXYZ0123456789 -").
Definition rel_text (T : textile) : str := match t_rel T with Some r => u " rel=""" ++ r ++ u """" | None => [] end.
Definition link_html (T : textile) (y x : str) : str :=
  u "<a href=""" ++ entities true y ++ u """" ++ rel_text T ++ u ">" ++ x ++ u "</a>".

(** ** A paragraph: a text, and links each followed by a text; each link with the address it stands for *)
Definition linked_para := (str * list (link * str * str))%type.
Fixpoint links_follow (W : world) (T : textile) (l : list (link * str * str)) : Prop :=
  match l with
  | [] => True
  | (k, y, t) :: l' => link_ok T k /\ target_of W T (ln_url k) y /\ accepts (match l' with [] => after_code | _ => between_code end) t /\ links_follow W T l'
  end.
Definition linked_ok (W : world) (T : textile) (p : linked_para) : Prop :=
  match snd p with
  | [] => accepts paragraph (fst p)
  | l => accepts before_code (fst p) /\ links_follow W T l
  end.
Definition linked_text (p : linked_para) : str := fst p ++ flat_map (fun x => link_text (fst (fst x)) ++ snd x) (snd p).
Definition linked_html (T : textile) (br : str) (p : linked_para) : str :=
  element (u "p") (breaks br (fst p) ++ flat_map (fun x => link_html T (snd (fst x)) (ln_label (fst (fst x))) ++ breaks br (snd x)) (snd p)).
Definition links_in (p : linked_para) : N := N.of_nat (List.length (snd p)).
