(** Model of the programs in /repo/examples that build a server: the calls they make.  A handler is a number; several handlers made with the
    same text by newIH do the same and have the same number.  Not modelled: what happens around Run (M_Run), the printing to standard output
    and, here, the bodies the handlers write (M_Serve). *)
From Verif Require Import Base GoStrings M_Tree M_Server.
From Verif Require M_Router M_Cond M_Content M_Static M_Mount.
Import M_Router.

(** newIH of the texts 1, 2, 9, 10; A1, A2, A3; B1, B2, B3, B9, B10 *)
Definition s1 := 1. Definition s2 := 2. Definition s9 := 9. Definition s10 := 10.
Definition hA1 := 11. Definition hA2 := 12. Definition hA3 := 13.
Definition hB1 := 21. Definition hB2 := 22. Definition hB3 := 23. Definition hB9 := 29. Definition hB10 := 30.
(** the main handlers, by the route they are registered for *)
Definition m_group := 1. Definition m_post := 2. Definition m_posta := 3. Definition m_get := 4. Definition m_geta := 5.
Definition m_b := 6. Definition m_c := 7. Definition m_user := 8. Definition m_action := 9.

(** examples/server.go:25-43 main, up to Run *)
Definition example_server : list scall :=
  [COp NewSet; COp (SBefore 0 (Fresh [s1; s2] 0)); COp (SAfter 0 (Fresh [s9; s10] 0));
   COp (SAdd (KPath MethodGetPost (B"/private_group")) (Some m_group) (Some 0));
   COp NewRouter; COp (RBefore 0 (Fresh [hA1; hA2; hA3] 0));
   COp (RUse 0 (KPath MethodPost (B"/")) (Some m_post)); COp (RUse 0 (KPath MethodPost (B"/a")) (Some m_posta));
   COp NewRouter; COp (RBefore 1 (Fresh [hB1; hB2; hB3] 0)); COp (RAfter 1 (Fresh [hB9; hB10] 0));
   COp (RUse 1 (KPath MethodGet (B"/")) (Some m_get)); COp (RUse 1 (KPath MethodGet (B"/a")) (Some m_geta))].

(** examples/example_1/main.go:32-59 main, up to Run *)
Definition example_1 : list scall :=
  [COp NewSet; COp (SBefore 0 (Fresh [s1; s2] 0)); COp (SAfter 0 (Fresh [s9; s10] 0));
   COp (SAdd (KPath MethodGetPost (B"/private_group")) (Some m_group) (Some 0));
   COp NewRouter; COp (RBefore 0 (Fresh [hA1; hA2; hA3] 0));
   COp (RUse 0 (KPath MethodPost (B"/")) (Some m_post)); COp (RUse 0 (KPath MethodGetPost (B"/a")) (Some m_posta));
   COp NewRouter; COp (RBefore 1 (Fresh [hB1; hB2; hB3] 0)); COp (RAfter 1 (Fresh [hB9; hB10] 0));
   COp (RUse 1 (KPath MethodGet (B"/")) (Some m_get)); COp (RUse 1 (KPath MethodGet (B"/b")) (Some m_b));
   COp NewRouter; COp (RAfter 2 (Fresh [hB9; hB10] 0)); COp (RUse 2 (KPath MethodGet (B"/c")) (Some m_c));
   COp NewRouter; COp (RAfter 3 (Fresh [hB9; hB10] 0));
   COp (RUse 3 (KPath MethodGet (B"/user/:user_id")) (Some m_user)); COp (RUse 3 (KPath MethodGet (B"/user/:user_id/:action")) (Some m_action))].

(** the main handlers of example_2, example_3 and static_video *)
Definition m_main := 1. Definition m_cookie := 2. Definition m_file := 3.
Section Files.
  Context {U : Type}.
  Variable pages : U.          (* the set of the router: no handlers before or after *)
  (** examples/example_2/main.go:52-66 main: what is registered; [fsys] is the file system embedded in the program *)
  Definition example_2 (fsys : M_Static.iofs) : list (M_Mount.op U) :=
    [M_Mount.OAdd MethodGetPost (B"/") m_main (Some pages); M_Mount.OAdd MethodGetPost (B"/cookie") m_cookie (Some pages);
     M_Mount.OStaticFileFS (B"data") (B"/html") fsys []; M_Mount.OFixStaticFileFS (B"/data/favicons/favicon.ico") (B"/favicon.ico") fsys []].
  (** examples/example_3/main.go:52-62 main: what is registered *)
  Definition example_3 : list (M_Mount.op U) :=
    [M_Mount.OAdd MethodGetPost (B"/") m_main (Some pages); M_Mount.OAdd MethodGetPost (B"/cookie") m_cookie (Some pages);
     M_Mount.OStaticFile (B"data") (B"/html") []].
  (** examples/static_video/main.go:62-71 main: what is registered, on two routers *)
  Definition example_video (pages2 : U) : list (M_Mount.op U) :=
    [M_Mount.OAdd MethodGetPost (B"/") m_main (Some pages); M_Mount.OAdd MethodGetPost (B"/file") m_file (Some pages2);
     M_Mount.OStaticFile (B"data") (B"/html") []].
End Files.

(** examples/static_video/main.go:45 fileName *)
Definition video_name := B"/Users/vladimirlashko/github/videoads/tmp/author/13-20221129103201-585269298002707063".
Section Video.
  Variable time_parse : bytes -> bytes -> option M_Cond.gtime.
  Variable fmt_time : M_Cond.gtime -> bytes.
  Variable mime_type : bytes -> bytes.
  Variables b1 b2 : bytes.
  (** examples/static_video/main.go:47-59 TestStaticHandler.Run at the time [now]; [file]: what os.Open gives
      (examples/static_video/fileouter/fileouter.go:12-27: New, Seek and Read are os.Open and those of the file), None for an error.
      The result is the response and whether Run returns nil.  [ctx.Set] of a user value, read by no one, is left out. *)
  Definition video_run (q : M_Cond.sreq) (p : M_Cond.sresp) (now : M_Cond.gtime) (file : option M_Content.content) : option (M_Cond.sresp * bool) :=
    let p := M_Cond.hset (B"Content-Type") (B"video/mp4") (M_Cond.hset (B"Cache-Control") (B"private, max-age=21299") p) in
    match file with
    | None => Some (p, false)
    | Some c => match M_Content.serve_content_seek time_parse fmt_time mime_type b1 b2 q p video_name now c with
                | Some (r, e) => Some (r, match e with M_Content.SOk => true | _ => false end)
                | None => None
                end
    end.
End Video.
