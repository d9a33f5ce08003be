(** What stands between the sanitizer and the result. *)
From Verif Require Import Str ModelBase ModelInline.

(** The same settings with another sanitizer, or without one. *)
Definition with_sanitizer (f : option (str -> str)) (T : textile) : textile :=
  mk_textile (t_uid T) (t_link_prefix T) (t_restricted T) (t_raw_block T) (t_align_class T) (t_block_tags T) (t_lite T) (t_noimage T)
    (t_get_sizes T) (t_max_span_depth T) (t_html T) (t_rel T) (t_dyn T) f.
Definition clean_by (f : option (str -> str)) (t : str) : str := match f with Some g => g t | None => t end.
(** Break tags that are not followed by a newline are written anew, with a newline. *)
Definition break_at (t : str) : option str :=
  if starts_with (u "<br>") t then Some (skipn 4 t) else if starts_with (u "<br />") t then Some (skipn 6 t) else None.
Definition on_new_line (t : str) : bool := match t with c :: _ => c =? 10 | [] => false end.
Fixpoint broken (n : nat) (tag t : str) : str :=
  match n, t with
  | S n', c :: t' =>
      match break_at t with
      | Some r => if on_new_line r then c :: broken n' tag t' else tag ++ [10] ++ broken n' tag r
      | None => c :: broken n' tag t'
      end
  | _, _ => []
  end.
Definition break_tag (k : html_kind) : str := match k with XHTML => u "<br />" | HTML5 => u "<br>" end.
(** Then the newlines at the end are dropped. *)
Fixpoint drop_newlines (t : str) : str :=
  match t with
  | [] => []
  | c :: t' => match drop_newlines t' with [] => if c =? 10 then [] else [c] | r => c :: r end
  end.
Definition tidied (T : textile) (t : str) : str := drop_newlines (broken (List.length t) (break_tag (t_html T)) t).
Definition map_res {A B} (g : A -> B) (r : res A) : res B :=
  match r with Ret a s => Ret (g a) s | Panic p => Panic p | Diverge => Diverge end.
