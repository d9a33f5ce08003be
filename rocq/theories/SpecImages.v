(** Paragraphs with images. *)
From Verif Require Import Str Unicode Regex RegexAuto ModelBase ModelUrl SpecPlain SpecText SpecDoc SpecSigned SpecCode SpecLinks SpecLinked.

(** ** An image: between exclamation marks, a side, an address, a text in parentheses; after them, an address to go to *)
Inductive side := Left | Center | Right.
Record image := mk_image { im_side : option side; im_src : str; im_alt : option str; im_href : option str }.
Definition side_mark (s : side) : str := match s with Left => u "<" | Center => u "=" | Right => u ">" end.
Definition side_name (s : side) : str := match s with Left => u "left" | Center => u "center" | Right => u "right" end.
Definition maybe {X} (f : X -> str) (o : option X) : str := match o with Some x => f x | None => [] end.
Definition image_text (i : image) : str :=
  u "!" ++ maybe side_mark (im_side i) ++ im_src i ++ maybe (fun t => u "(" ++ t ++ u ")") (im_alt i) ++ u "!" ++ maybe (fun h => u ":" ++ h) (im_href i).
(** The address of an image starts with a letter, a digit, a slash or a dot, and has no exclamation mark. *)
Definition src_first : str := u "abcdefghijklmnopqrstuvwxyzABCDEFGHIJKLMNOPQRSTUVWXYZ0123456789/.".
Definition src_ok (x : str) : Prop := written_url x /\ ~ In 33 x /\ exists c r, x = c :: r /\ In c src_first.
(** How an address is printed; any scheme. *)
Definition printed_as (W : world) (x y : str) : Prop :=
  (exists scheme, w_parse W x = Some (scheme, y) /\ ~ In 9 y /\ ~ In 10 y /\ ~ In 13 y) \/
  (w_parse W x = None /\ w_join W x <> None /\ ~ In 63 x /\ ~ In 35 x /\ y = x).
Definition image_ok (T : textile) (i : image) : Prop :=
  src_ok (im_src i) /\ token_free T (im_src i) /\ (forall t, im_alt i = Some t -> accepts label t /\ ~ In 10 t) /\
  (forall h, im_href i = Some h -> written_url h /\ token_free T h).
(** An image followed by a text, with the addresses that [src] and [href] stand for. *)
Record placed := mk_placed { pl_image : image; pl_src : str; pl_href : str; pl_text : str }.
(** After an image: the end, white space, a comma or a full stop. *)
Definition image_tail (t : str) : Prop := match t with [] => True | c :: _ => In c [32; 10; 44; 46] end.
Definition placed_ok (W : world) (T : textile) (p : placed) : Prop :=
  image_ok T (pl_image p) /\ target_of W T (im_src (pl_image p)) (pl_src p) /\
  (forall h, im_href (pl_image p) = Some h -> printed_as W h (pl_href p)) /\ image_tail (pl_text p).
Definition attr_text (name value : str) : str := u " " ++ name ++ u "=""" ++ value ++ u """".
Definition by_class (T : textile) : bool := match t_align_class T with Some v => v | None => match t_html T with XHTML => false | HTML5 => true end end.
Definition img_html (T : textile) (i : image) (src : str) : str :=
  u "<img" ++ (if by_class T then [] else maybe (fun s => attr_text (u "align") (side_name s)) (im_side i))
  ++ attr_text (u "alt") (maybe (fun t => t) (im_alt i))
  ++ (if by_class T then maybe (fun s => attr_text (u "class") (u "align-" ++ side_name s)) (im_side i) else [])
  ++ attr_text (u "src") (entities true src) ++ maybe (fun t => attr_text (u "title") t) (im_alt i) ++ u " />".
Definition placed_html (T : textile) (p : placed) : str :=
  match im_href (pl_image p) with
  | Some _ => u "<a href=""" ++ entities true (pl_href p) ++ u """>" ++ img_html T (pl_image p) (pl_src p) ++ u "</a>"
  | None => img_html T (pl_image p) (pl_src p)
  end.

(** ** A paragraph: a text, and images each followed by a text *)
Definition pictured := (str * list placed)%type.
Fixpoint images_follow (W : world) (T : textile) (l : list placed) : Prop :=
  match l with
  | [] => True
  | p :: l' => placed_ok W T p /\ accepts (match l' with [] => after_code | _ => between_code end) (pl_text p) /\ images_follow W T l'
  end.
Definition pictured_ok (W : world) (T : textile) (p : pictured) : Prop :=
  match snd p with
  | [] => accepts paragraph (fst p)
  | l => accepts before_code (fst p) /\ images_follow W T l
  end.
Definition pictured_text (p : pictured) : str := fst p ++ flat_map (fun x => image_text (pl_image x) ++ pl_text x) (snd p).
Definition pictured_html (T : textile) (br : str) (p : pictured) : str :=
  element (u "p") (breaks br (fst p) ++ flat_map (fun x => placed_html T x ++ breaks br (pl_text x)) (snd p)).
Definition images_in (p : pictured) : N := N.of_nat (List.length (snd p)).
