(** src/urlutils.rs and src/charcounter.rs *)
From Verif Require Import Str Unicode Regex RegexParse RegexSnips ModelBase ModelHtml.

(** [percent_encoding::utf8_percent_encode(_, NON_ALPHANUMERIC)] *)
Definition is_ascii_alnum (c : N) : bool :=
  between 48 57 c || between 65 90 c || between 97 122 c.
Definition hex_upper (n : N) : N := if n <? 10 then 48 + n else 55 + n.
Definition percent_byte (b : N) : str := [37; hex_upper (b / 16); hex_upper (b mod 16)].
Definition percent_encode (s : str) : str :=
  flat_map (fun c => if is_ascii_alnum c then [c] else flat_map percent_byte (utf8_bytes c)) s.

(** [UrlBits], src/urlutils.rs:24-31.  A [url::Url] is represented by its scheme
    and serialization. *)
Inductive url_bits :=
| AbsoluteUrl (scheme url : str)
| RelativeUrl (url source : str).

Section WithWorld.
Variable W : world.

(** [make_relative_url], src/urlutils.rs:42-49 *)
Definition make_relative_url (url : str) : option url_bits :=
  option_map (fun joined => RelativeUrl joined url) (w_join W url).

(** [UrlBits::parse], src/urlutils.rs:51-63 *)
Definition url_parse (url : str) : url_bits :=
  match w_parse W url with
  | Some (scheme, ser) => AbsoluteUrl scheme ser
  | None =>
      match make_relative_url url with
      | Some b => b
      | None =>
          match make_relative_url (percent_encode url) with
          | Some b => b
          | None => RelativeUrl (u "http://example.com/") []
          end
      end
  end.

(** [scheme], [is_relative], src/urlutils.rs:65-77 *)
Definition url_scheme (b : url_bits) : str :=
  match b with AbsoluteUrl s _ => s | RelativeUrl _ _ => [] end.
Definition is_relative (b : url_bits) : bool :=
  match b with AbsoluteUrl _ _ => false | RelativeUrl _ _ => true end.

(** [UrlBits::to_string], src/urlutils.rs:81-112 (positions are code point
    indices here; '?' and '#' are one byte, so slices correspond). *)
Definition url_to_string (b : url_bits) : str :=
  match b with
  | AbsoluteUrl _ url => url
  | RelativeUrl url source =>
      match find_char 63 url, find_char 63 source with
      | Some up, Some sp => firstn (S sp) source ++ skipn (S up) url
      | _, _ =>
          match rfind_char 35 url, rfind_char 35 source with
          | Some up, Some sp => firstn (S sp) source ++ skipn (S up) url
          | None, Some sp => firstn sp source
          | _, None => source
          end
      end
  end.

(** [UrlString::to_string], [source], [to_html_string], src/urlutils.rs:135-161 *)
Definition us_to_string (x : url_string) : str :=
  match x with
  | Normalized t => t
  | Raw t => if is_empty t then [] else url_to_string (url_parse t)
  end.
Definition us_source (x : url_string) : str :=
  match x with Normalized t => t | Raw t => t end.
Definition us_to_html_string (x : url_string) : str :=
  encode_html (us_to_string x) true true.

End WithWorld.

(** ** [CharCounter], src/charcounter.rs: the counted characters with their
    counters. *)
Definition counter := list (N * option N).

(** [CharCounter::new], :9-14 *)
Definition cc_new (chars : list N) : counter := map (fun c => (c, None)) chars.
(** [Index::index], :28-35 *)
Definition cc_get (c : N) (k : counter) : M (option N) :=
  match assocN c k with Some v => ret v | None => panic BadCounter end.
(** [IndexMut::index_mut] followed by an assignment, :40-47 *)
Fixpoint cc_update (c : N) (v : option N) (k : counter) : option counter :=
  match k with
  | [] => None
  | (c', v') :: k' =>
      if c' =? c then Some ((c', v) :: k')
      else option_map (cons (c', v')) (cc_update c v k')
  end.
Definition cc_set (c : N) (v : option N) (k : counter) : M counter :=
  of_opt BadCounter (cc_update c v k).
(** [CharCounter::dec], :16-22 *)
Definition cc_dec (c : N) (k : counter) : M counter :=
  v <- cc_get c k ;;
  match v with
  | Some n => cc_set c (Some (if 0 <? n then n - 1 else 0)) k
  | None => panic BadCounter
  end.
