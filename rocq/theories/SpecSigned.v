(** Blocks with a signature, alone or continued by the blocks that follow. *)
From Verif Require Import Str Unicode RegexAuto ModelBase ModelAttrs SpecNewlines SpecPlain SpecDoc SpecAtts.

Inductive signature := SigP | SigH (n : N) | SigBq | SigBc | SigPre | SigRaw.
Definition sig_name (g : signature) : str :=
  match g with
  | SigP => u "p" | SigH n => heading_tag n | SigBq => u "bq" | SigBc => u "bc" | SigPre => u "pre" | SigRaw => u "notextile"
  end.
(** Attributes between the name and the dot: alignments and paddings, at most one class, style
    and language in any order, alignments and paddings. *)
Definition name_chars : str := u "abcdefghijklmnopqrstuvwxyzABCDEFGHIJKLMNOPQRSTUVWXYZ0123456789_-".
Definition lang_chars : str := name_chars ++ u "+".
Definition style_chars : str := name_chars ++ u " .,:#%!*+/".
Definition in_chars (cs t : str) : bool := forallb (fun c => existsb (N.eqb c) cs) t.
Definition mark (x : item) : bool := match x with PadLeft _ | PadRight _ | HAlign _ | VAlign _ => true | _ => false end.
Definition described (x : item) : bool := match x with Style _ _ | Lang _ | ClassId _ _ => true | _ => false end.
Definition in_place (l : list item) : Prop := exists a d b, l = a ++ d ++ b /\ forallb mark a = true /\ forallb described d = true /\ forallb mark b = true.
(** In restricted mode angle brackets are escaped. *)
Definition sig_item (restricted : bool) (x : item) : Prop :=
  match x with
  | Style ds _ => forall d, In d ds -> in_chars style_chars d = true
  | Lang l => in_chars lang_chars l = true
  | ClassId c i => in_chars (name_chars ++ u " ") c = true /\ forall s, i = Some s -> in_chars (name_chars ++ u ":") s = true
  | HAlign a => restricted = true -> a = Center
  | _ => True
  end.
(** A parenthesis that is never closed could be taken for one that opens a class. *)
Definition closed (l : list item) (t : str) : Prop :=
  (forall a n b, l = a ++ PadLeft n :: b -> exists x, In x b /\ In 41 (item_text x)) \/ ~ In 41 t.

(** A part of a document: a paragraph, a block with a signature, the same with further blocks
    that belong to it, or a comment. *)
Inductive part :=
| Anonymous (t : str)
| Signed (g : signature) (l : list item) (t : str)
| Extended (g : signature) (l : list item) (t : str) (more : list str)
| Comment (t : str).
Definition pieces (p : part) : list str :=
  match p with
  | Anonymous t => [t]
  | Signed g l t => [sig_name g ++ items_text l ++ u ". " ++ t]
  | Extended g l t more => (sig_name g ++ items_text l ++ u ".. " ++ t) :: more
  | Comment t => [u "###. " ++ t]
  end.
Definition written (ps : list part) : str := sections (flat_map pieces ps).

(** ** What is shown *)
Definition attributes (r : bool) (l : list item) : str := flat_map (fun a => u " " ++ fst a ++ u "=""" ++ snd a ++ u """") (meant ElNone true r l).
(** The language of code is its class. *)
Definition language (l : list item) : option str := pick (fun x => match x with Lang s => Some s | _ => None end) l.
Definition not_lang (x : item) : bool := match x with Lang _ => false | _ => true end.
Definition code_class (l : list item) : str :=
  match language l with Some s => if in_chars name_chars s then u " class=""" ++ s ++ u """" else [] | None => [] end.
(** Around all blocks of the part. *)
Definition outer_open (r : bool) (g : signature) (l : list item) : str :=
  match g with
  | SigBq => u "<blockquote" ++ attributes r l ++ u ">" ++ [10]
  | SigBc => u "<pre" ++ attributes r (filter not_lang l) ++ u "><code" ++ code_class l ++ u ">"
  | SigPre => u "<pre" ++ attributes r l ++ u ">"
  | _ => []
  end.
Definition outer_close (g : signature) : str :=
  match g with SigBq => [10] ++ u "</blockquote>" | SigBc => u "</code></pre>" | SigPre => u "</pre>" | _ => [] end.
(** Around each block of the part. *)
Definition inner_open (r : bool) (g : signature) (l : list item) : str :=
  match g with
  | SigP => u "<p" ++ attributes r l ++ u ">"
  | SigH n => u "<" ++ heading_tag n ++ attributes r l ++ u ">"
  | SigBq => [9] ++ u "<p" ++ attributes r l ++ u ">"
  | _ => []
  end.
Definition inner_close (g : signature) : str :=
  match g with SigP | SigBq => u "</p>" | SigH n => u "</" ++ heading_tag n ++ u ">" | _ => [] end.
Definition inside (br : str) (g : signature) (t : str) : str :=
  match g with SigP | SigH _ | SigBq => breaks br t | SigBc | SigPre => entities true t | SigRaw => t end.
Definition inner (r : bool) (br : str) (g : signature) (l : list item) (t : str) : str := inner_open r g l ++ inside br g t ++ inner_close g.
Definition group (r : bool) (br : str) (g : signature) (l : list item) (ts : list str) : str :=
  outer_open r g l ++ sections (map (inner r br g l) ts) ++ outer_close g.
Definition part_html (r : bool) (br : str) (p : part) : list str :=
  match p with
  | Anonymous t => [group r br SigP [] [t]]
  | Signed g l t => [group r br g l [t]]
  | Extended g l t more => [group r br g l (t :: more)]
  | Comment _ => []
  end.
Definition page_html (r : bool) (br : str) (ps : list part) : str := sections (flat_map (part_html r br) ps).

(** ** Which documents *)
Definition sig_text (g : signature) (t : str) : Prop :=
  match g with SigP | SigH _ | SigBq => accepts paragraph t | SigBc | SigPre => code_text t | SigRaw => code_text t /\ no_br t end.
Definition sig_ok (T : textile) (g : signature) (l : list item) : Prop :=
  match g with SigH n => 1 <= n <= 6 | _ => True end /\ items_ok ElNone (t_restricted T) l /\ in_place l /\
  (forall x, In x l -> sig_item (t_restricted T) x) /\ token_free T (items_text l).
(** The text does not start with a signature. *)
Definition unsigned (t : str) : Prop :=
  (forall r, t <> u "fn" ++ r) /\
  forall name c r, In name [u "bq"; u "bc"; u "notextile"; u "pre"; u "h1"; u "h2"; u "h3"; u "h4"; u "h5"; u "h6"; u "p"; u "###"] ->
    In c (u ".([{<>=)-^~") -> t <> name ++ c :: r.
(** In restricted mode the document is escaped first. *)
Definition seen_text (T : textile) (t : str) : str := if t_restricted T then entities false t else t.
Definition is_text (g : signature) : bool := match g with SigP | SigH _ | SigBq => true | _ => false end.
Definition seen_in (T : textile) (g : signature) (t : str) : str := if is_text g then t else seen_text T t.
Definition seen_part (T : textile) (p : part) : part :=
  match p with
  | Anonymous t => p
  | Signed g l t => Signed g l (seen_in T g t)
  | Extended g l t more => Extended g l (seen_in T g t) (map (seen_in T g) more)
  | Comment t => Comment (seen_text T t)
  end.
(** A block that continues another one. *)
Definition continues (T : textile) (g : signature) (t : str) : Prop :=
  is_text g = false -> unsigned (seen_text T t) /\ exists c, In c t /\ is_ws c = false.
Definition lite_sig (g : signature) : bool := match g with SigP | SigBq | SigBc => true | _ => false end.
Definition part_ok (T : textile) (p : part) : Prop :=
  match p with
  | Anonymous t => accepts paragraph t
  | Signed g l t => sig_ok T g l /\ closed l t /\ sig_text g t /\ token_free T t /\ (t_lite T = true -> lite_sig g = true)
  | Extended g l t more =>
      sig_ok T g l /\ closed l t /\ (forall x, In x (t :: more) -> sig_text g x /\ token_free T x) /\
      (forall x, In x more -> continues T g x) /\ (t_lite T = true -> lite_sig g = true)
  | Comment t => code_text t /\ token_free T t /\ t_lite T = false
  end.
(** A paragraph after a part with further blocks would belong to it. *)
Fixpoint separate (ps : list part) : Prop :=
  match ps with
  | Extended _ _ _ _ :: (Anonymous _ :: _) => False
  | _ :: ps' => separate ps'
  | [] => True
  end.
Definition shown_part (p : part) : bool := match p with Comment _ => false | _ => true end.
