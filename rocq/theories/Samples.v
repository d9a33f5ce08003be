(** Concrete settings and a concrete world for the examples. *)
From Coq Require Import ZArith.
From Verif Require Import Str ModelBase ModelInline ModelParser.

(** A world without network in which only http URLs parse, unchanged. *)
Definition W0 : world :=
  mk_world (fun s => if starts_with (u "http://") s then Some (u "http", s) else None)
           (fun s => Some s) (fun _ => false) (fun _ _ _ => None) (fun _ => None).
Definition T0 : textile := default_textile (u "abc").
(** The HTML of a document. *)
Definition html_of (T : textile) (text : str) : option str :=
  match parse W0 T 60 [] text with Ret h _ => Some h | _ => None end.
Definition outcome (T : textile) (text : str) : res unit :=
  match parse W0 T 60 [] text with Ret h s => Ret tt (new_state []) | Panic p => Panic p | Diverge => Diverge end.
