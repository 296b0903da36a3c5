(** Specification of the example file servers (C170): which handler is chosen. *)
From Verif Require Import Base GoStrings M_Tree S_Route M_Static M_Mount S_Mount M_Examples.

Section Pages.
  Context {U : Type}.
  Variables (pages : U) (fresh_set : bytes -> U) (fsys : iofs).
  (** [chooses method path handler-set main-handler] *)
  Inductive chooses_2 : bytes -> bytes -> U -> handler -> Prop :=
  | F_main m path : In m [B"GET"; B"POST"] -> segments path = [] -> chooses_2 m path pages (HUser m_main)
  | F_cookie m path : In m [B"GET"; B"POST"] -> segments path = [B"cookie"] -> chooses_2 m path pages (HUser m_cookie)
  | F_icon m path : In m [B"GET"; B"POST"] -> segments path = [B"favicon.ico"] ->
      chooses_2 m path (fresh_set (B"static for '/favicon.ico'")) (HFix fsys (B"/data/favicons/favicon.ico"))
  | F_html m path : In m [B"GET"; B"HEAD"] -> below (B"/html") path ->
      chooses_2 m path (fresh_set (B"static for '/html'")) (HEmbed fsys (B"data") (B"html")).
  Inductive chooses_3 : bytes -> bytes -> U -> handler -> Prop :=
  | D_main m path : In m [B"GET"; B"POST"] -> segments path = [] -> chooses_3 m path pages (HUser m_main)
  | D_cookie m path : In m [B"GET"; B"POST"] -> segments path = [B"cookie"] -> chooses_3 m path pages (HUser m_cookie)
  | D_html m path : In m [B"GET"; B"HEAD"] -> below (B"/html") path ->
      chooses_3 m path (fresh_set (B"static for '/html'")) (HFile fsys (B"html")).
  (** [pages2]: the set of the second router *)
  Inductive chooses_video (pages2 : U) : bytes -> bytes -> U -> handler -> Prop :=
  | V_main m path : In m [B"GET"; B"POST"] -> segments path = [] -> chooses_video pages2 m path pages (HUser m_main)
  | V_file m path : In m [B"GET"; B"POST"] -> segments path = [B"file"] -> chooses_video pages2 m path pages2 (HUser m_file)
  | V_html m path : In m [B"GET"; B"HEAD"] -> below (B"/html") path ->
      chooses_video pages2 m path (fresh_set (B"static for '/html'")) (HFile fsys (B"html")).
End Pages.
