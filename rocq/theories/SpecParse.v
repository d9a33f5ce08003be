(** Vocabulary for whole documents and for the settings. *)
From Verif Require Import Str Unicode ModelBase ModelParser.

(** The code points with the Unicode property White_Space. *)
Definition white_space (c : N) : Prop :=
  9 <= c <= 13 \/ c = 32 \/ c = 133 \/ c = 160 \/ c = 5760 \/ 8192 <= c <= 8202 \/
  c = 8232 \/ c = 8233 \/ c = 8239 \/ c = 8287 \/ c = 12288.
Definition blank (text : str) : Prop := Forall white_space text.

(** Every occurrence of a break tag is followed by a newline or by nothing. *)
Definition breaks_end_lines (html : str) : Prop :=
  forall tag w v, tag = u "<br>" \/ tag = u "<br />" -> html = w ++ tag ++ v ->
  v = [] \/ exists v', v = 10 :: v'.

(** ** Calls of the public builder methods which return a parser *)
Inductive setting :=
| SetSizes (v : bool) | SetBlockTags (v : bool) | SetHtmlKind (v : html_kind) | SetRestricted (v : bool)
| SetLite (v : bool) | SetImages (v : bool) | SetRel (v : option str) | SetRawBlocks (v : bool)
| SetSanitize (enable : bool) (default_clean : str -> str) | AdjustSanitizer (clean : str -> str)
| SetUid (base : str).

Definition call (c : setting) (T : textile) : textile :=
  match c with
  | SetSizes v => set_getting_image_size v T
  | SetBlockTags v => set_block_tags v T
  | SetHtmlKind v => set_html_kind v T
  | SetRestricted v => set_restricted v T
  | SetLite v => set_lite v T
  | SetImages v => set_images v T
  | SetRel v => set_rel v T
  | SetRawBlocks v => set_raw_blocks v T
  | SetSanitize e d => set_sanitize e d T
  | AdjustSanitizer f => adjust_sanitizer f T
  | SetUid b => set_uid b T
  end.
Definition calls (cs : list setting) (T : textile) : textile := fold_left (fun t c => call c t) cs T.

(** Which setting a call is about: two calls with one kind override each other. *)
Definition kind (c : setting) : nat :=
  match c with
  | SetSizes _ => 0 | SetBlockTags _ => 1 | SetHtmlKind _ => 2 | SetRestricted _ => 3 | SetLite _ => 4
  | SetImages _ => 5 | SetRel _ => 6 | SetRawBlocks _ => 7 | SetSanitize _ _ => 8 | AdjustSanitizer _ => 8
  | SetUid _ => 9
  end%nat.

(** The setting of a kind, as a value that can be compared. *)
Inductive value :=
| VBool (b : bool) | VKind (k : html_kind) | VRel (r : option str) | VClean (f : option (str -> str))
| VUid (uid prefix dyn : str) | VNone.
Definition read (k : nat) (T : textile) : value :=
  match k with
  | 0 => VBool (t_get_sizes T) | 1 => VBool (t_block_tags T) | 2 => VKind (t_html T)
  | 3 => VBool (t_restricted T) | 4 => VBool (t_lite T) | 5 => VBool (negb (t_noimage T))
  | 6 => VRel (t_rel T) | 7 => VBool (t_raw_block T) | 8 => VClean (t_sanitize T)
  | 9 => VUid (t_uid T) (t_link_prefix T) (t_dyn T)
  | _ => VNone
  end%nat.
(** The value a call stands for. *)
Definition meant (c : setting) : value :=
  match c with
  | SetSizes v => VBool v | SetBlockTags v => VBool v | SetHtmlKind v => VKind v
  | SetRestricted v => VBool v | SetLite v => VBool v | SetImages v => VBool v | SetRel v => VRel v
  | SetRawBlocks v => VBool v
  | SetSanitize e d => VClean (if e then Some d else None)
  | AdjustSanitizer f => VClean (Some f)
  | SetUid b => VUid (u "textileRef:" ++ b ++ u ":") (b ++ u "-")
                     (u "$1<span class=""caps"">textileRef:" ++ b ++ u "::glyph:$2</span>$3")
  end.
