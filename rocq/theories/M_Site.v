(** Model of a site: routes and static mounts (M_Mount) behind basic authentication (M_Auth), served by
    the pipeline (M_Pipeline) with handlers that read and change the request and the response; what goes
    over the wire.  It joins M_Mount, M_Static, M_Auth and M_Pipeline.  Not modelled here: calls at the
    same time (M_Serve), goroutines beyond their results, the debug log entries, Context data, and
    HandlerSets changed after a registration (M_Router). *)
From Verif Require Import Base GoStrings GoErrors M_Tree M_RegTree M_Cond M_Content M_Static M_Mount.
From Verif Require M_Pipeline M_Auth.

(** a *fasthttp.RequestCtx: the request, the path of its URI, the response *)
Record wire := Wire { w_req : sreq; w_path : bytes; w_resp : sresp }.

(** a call of a handler: what it does to the RequestCtx, the files it opens through package static, what it does to
    the Context and how it ends *)
Definition code := M_Pipeline.ctx -> wire -> wire * list M_Static.call * M_Pipeline.beh.
(** code of the program opens no files through package static *)
Definition user_code := M_Pipeline.ctx -> wire -> wire * M_Pipeline.beh.
Definition plain (u : user_code) : code := fun c w => let '(w', b) := u c w in (w', [], b).

(** handler.go:3-19: the interfaces, as the program implements them *)
Record uhandler := UHandler { u_name : bytes; u_run : user_code }.
Record umain := UMain { um_name : bytes; um_init : user_code; um_run : user_code }.
Record ulast := ULast { ul_name : bytes; ul_run : option err -> user_code }.
(** top_handler.go:5-14 HandlerSet without its main handler *)
Record mids := Mids { mi_before : list uhandler; mi_after : list uhandler; mi_last : option ulast }.

(** top_handler.go:5-14 HandlerSet, ready to run *)
Record sset := SSet {
  ss_before : list (bytes * code);
  ss_after : list (bytes * code);
  ss_last : option (bytes * (option err -> code));
  ss_main : option (bytes * code * code)                 (* name, Init, Run *)
}.
(** one call: what M_Pipeline says about it, the RequestCtx it was given, the one it left and the files it opened *)
Record stage := Stage { g_call : M_Pipeline.call; g_in : wire; g_out : wire; g_files : list M_Static.call }.

Definition run1 (who : M_Pipeline.who) (name : bytes) (b : code) (c : M_Pipeline.ctx) (w : wire) : stage * M_Pipeline.ctx * wire :=
  let c1 := M_Pipeline.add_debug c name in
  let '(w', files, (acts, out)) := b c1 w in
  (Stage (M_Pipeline.Call who name c1 acts out) w w' files, M_Pipeline.apply c1 acts, w').

(** top_handler.go:34-44 and 57-67 *)
Fixpoint run_list (mkw : nat -> M_Pipeline.who) (i : nat) (hs : list (bytes * code)) (c : M_Pipeline.ctx) (w : wire)
  : list stage * M_Pipeline.ctx * wire * M_Pipeline.ctl :=
  match hs with
  | [] => ([], c, w, M_Pipeline.Continue)
  | (name, b) :: hs' =>
      let '(k, c1, w1) := run1 (mkw i) name b c w in
      match M_Pipeline.after_call true (g_call k) c1 with
      | M_Pipeline.Finish r => ([k], c1, w1, M_Pipeline.Finish r)
      | M_Pipeline.Continue => let '(ks, c2, w2, r) := run_list mkw (S i) hs' c1 w1 in (k :: ks, c2, w2, r)
      end
  end.

(** top_handler.go:24-70 Run *)
Definition run_set (s : sset) (c : M_Pipeline.ctx) (w : wire) : list stage * M_Pipeline.ctx * wire * M_Pipeline.rout :=
  match ss_main s with
  | None => ([], c, w, M_Pipeline.RPanic)
  | Some (name, init, run) =>
      let '(k0, c0, w0) := run1 M_Pipeline.WInit name init c w in
      match M_Pipeline.after_call false (g_call k0) c0 with
      | M_Pipeline.Finish r => ([k0], c0, w0, r)
      | M_Pipeline.Continue =>
          match run_list M_Pipeline.WBefore 0 (ss_before s) c0 w0 with
          | (kb, c1, w1, M_Pipeline.Finish r) => (k0 :: kb, c1, w1, r)
          | (kb, c1, w1, M_Pipeline.Continue) =>
              let '(km, c2, w2, rm) :=
                if M_Pipeline.c_skip c1 then ([], c1, w1, M_Pipeline.Continue)
                else let '(k, c2, w2) := run1 M_Pipeline.WMain name run c1 w1 in
                     ([k], c2, w2, M_Pipeline.after_call true (g_call k) c2) in
              match rm with
              | M_Pipeline.Finish r => (k0 :: kb ++ km, c2, w2, r)
              | M_Pipeline.Continue =>
                  match run_list M_Pipeline.WAfter 0 (ss_after s) c2 w2 with
                  | (ka, c3, w3, M_Pipeline.Finish r) => (k0 :: kb ++ km ++ ka, c3, w3, r)
                  | (ka, c3, w3, M_Pipeline.Continue) => (k0 :: kb ++ km ++ ka, c3, w3, M_Pipeline.RRet None)
                  end
              end
          end
      end
  end.

(** top_handler.go:72-81 RunLast *)
Definition run_last (s : sset) (c : M_Pipeline.ctx) (w : wire) (e : option err) : list stage * M_Pipeline.ctx * wire * M_Pipeline.rout :=
  match ss_last s with
  | None => ([], c, w, M_Pipeline.RRet e)
  | Some (name, b) =>
      let '(w', files, (acts, out)) := b e c w in
      ([Stage (M_Pipeline.Call (M_Pipeline.WLast e) name c acts out) w w' files], M_Pipeline.apply c acts, w',
       match out with M_Pipeline.HRet e' => M_Pipeline.RRet e' | M_Pipeline.HPanic => M_Pipeline.RPanic end)
  end.

(** fasthttp RequestCtx.Error (environment): the response is reset, then status, type and body set *)
Definition fast_error (msg : bytes) (code : Z) : sresp :=
  append_body msg (M_Cond.hset (B"Content-Type") (B"text/plain; charset=utf-8") (SResp code [] [])).

(** The outcome of a request: the calls, the RequestCtx at the end, and what runHTTP returns *)
Record page := Page { pg_stages : list stage; pg_wire : wire; pg_result : M_Pipeline.rout; pg_ctx : M_Pipeline.ctx }.

(** server_run.go:123-167 runHTTP, as M_Pipeline.run_http *)
Definition run_http (found : option sset) (ses : option user_code) (lvl : Z)
           (sched : list (option err) -> list (option err)) (w : wire) : page :=
  let path := w_path w in
  match found with
  | None => Page [] (Wire (w_req w) (w_path w) (fast_error (B"not found") 404))
                 (M_Pipeline.RRet (M_Pipeline.new_err (B"path '" ++ path ++ B"' not found"))) M_Pipeline.new_ctx
  | Some s =>
      let '(ki, c0, w0, go) :=
        match ses with
        | None => ([], M_Pipeline.new_ctx, w, M_Pipeline.Continue)
        | Some f =>
            let '(w0, (acts, out)) := f M_Pipeline.new_ctx w in
            let c := M_Pipeline.apply M_Pipeline.new_ctx acts in
            ([Stage (M_Pipeline.Call M_Pipeline.WSesInit [] M_Pipeline.new_ctx acts out) w w0 []], c, w0,
             match out with
             | M_Pipeline.HPanic => M_Pipeline.Finish M_Pipeline.RPanic
             | M_Pipeline.HRet (Some e) =>
                 M_Pipeline.Finish (M_Pipeline.RRet (M_Pipeline.new_err (B"path '" ++ path ++ B"': " ++ err_text e)))
             | M_Pipeline.HRet None => M_Pipeline.Continue
             end)
        end in
      match go with
      | M_Pipeline.Finish r => Page ki w0 r c0
      | M_Pipeline.Continue =>
          let c1 := M_Pipeline.Ctx (M_Pipeline.c_stopped c0) (M_Pipeline.c_aborted c0) (M_Pipeline.c_skip c0) (M_Pipeline.c_cancelled c0)
                                   lvl (M_Pipeline.c_log c0) (M_Pipeline.c_tasks c0) in
          match run_set s c1 w0 with
          | (ks, c2, w2, M_Pipeline.RPanic) => Page (ki ++ ks) w2 M_Pipeline.RPanic c2
          | (ks, c2, w2, M_Pipeline.RRet e) =>
              if M_Pipeline.c_aborted c2 then Page (ki ++ ks) w2 (M_Pipeline.RRet e) c2
              else
                let '(eg, c3) := M_Pipeline.eg_wait sched c2 in
                let kw := Stage (M_Pipeline.Call M_Pipeline.WWait [] c2 [] (M_Pipeline.HRet eg)) w2 w2 [] in
                let '(kl, c4, w4, r) := run_last s c3 w2 (M_Pipeline.combine_err e eg) in
                Page (ki ++ ks ++ [kw] ++ kl) w4 r c4
          end
      end
  end.

Section Site.
  Context {U : Type}.
  Variables time_parse : bytes -> bytes -> option gtime.
  Variable fmt_time : gtime -> bytes.
  Variable mime_type : bytes -> bytes.
  Variables b1 b2 : bytes.
  Variable url_string : bytes -> bytes.
  Variable err_of : ferr -> bytes.                         (* the text of an error of package static *)
  Variable sets : U -> args -> mids.                       (* the program's HandlerSets and handlers, given the URL parameters *)
  Variable mains : nat -> args -> option umain.

  (** the Run of a static handler as a call of the pipeline: M_Static; an index out of range panics, the deferred
      SetPath is done *)
  Definition static_code (h : handler) : code := fun _ w =>
    match handler_run time_parse fmt_time mime_type b1 b2 url_string h (w_req w) (w_path w) (w_resp w) with
    | Some (Some (r, e, files), path') =>
        (Wire (w_req w) path' r, files, ([], M_Pipeline.HRet (match e with FNil => None | _ => M_Pipeline.new_err (err_of e) end)))
    | Some (None, path') => (Wire (w_req w) path' (w_resp w), [], ([], M_Pipeline.HPanic))
    | None => (w, [], ([], M_Pipeline.HPanic))
    end.
  (** static.go:18-20, static_embed.go:21-23, static_embed_fix.go:18-20 Init; handler.go:24 for the names of the last two *)
  Definition nothing : code := fun _ w => (w, [], ([], M_Pipeline.HRet None)).
  Definition static_name (h : handler) : bytes := match h with HFile _ _ => B"StaticFileHandler" | _ => B"handler" end.
  (** a registered set: the program's set with the main handler of the route *)
  Definition sset_of (x : @hs U) (a : args) : sset :=
    let '(u, h) := x in
    let m := sets u a in
    SSet (map (fun k => (u_name k, plain (u_run k))) (mi_before m)) (map (fun k => (u_name k, plain (u_run k))) (mi_after m))
         (option_map (fun l => (ul_name l, fun e => plain (ul_run l e))) (mi_last m))
         (match h with
          | HUser n => option_map (fun k => (um_name k, plain (um_init k), plain (um_run k))) (mains n a)
          | _ => Some (static_name h, nothing, static_code h)
          end).

  (** server.go:18-42 Server *)
  Record site := Site {
    st_srv : srv U;
    st_auth : option M_Auth.base_auth;
    st_ses : option user_code;
    st_level : Z
  }.
  Variable uni : bytes -> bytes.
  Variable order : rmap (@hs U) -> rmap (@hs U).
  Variable sched : list (option err) -> list (option err).

  (** server_run.go:123-167 *)
  Definition site_request (st : site) (w : wire) : page :=
    run_http (match srv_find order (st_srv st) (q_method (w_req w)) (w_path w) [] with
              | (TFound x, a) => Some (sset_of x a)
              | _ => None
              end) (st_ses st) (st_level st) sched w.
  (** baseauth.go:99-104: the refusal *)
  Definition refusal (h : M_Auth.base_auth) (w : wire) : wire :=
    Wire (w_req w) (w_path w) (M_Cond.hset (B"WWW-Authenticate") (M_Auth.a_header h) (set_status 401 (w_resp w))).
  (** what BaseAuth looks at (baseauth.go:92) *)
  Definition auth_request (w : wire) : M_Auth.request :=
    M_Auth.Request (q_method (w_req w)) (w_path w) (hpeek (q_hdr (w_req w)) (B"Authorization")).
  (** server_run.go:109-121 ServeHTTP *)
  Definition site_serve (st : site) (w : wire) : page :=
    let stop w r := Page [] w r M_Pipeline.new_ctx in
    match st_auth st with
    | None => stop w M_Pipeline.RPanic
    | Some h =>
        match (if M_Auth.a_use h then match M_Auth.a_access h with None => Panic | Some f => f (auth_request w) end else Ok false) with
        | Panic => stop w M_Pipeline.RPanic
        | Ok false => site_request st w
        | Ok true =>
            match snd (M_Auth.check uni h (auth_request w)) with
            | Panic => stop w M_Pipeline.RPanic
            | Ok false => stop (refusal h w) (M_Pipeline.RRet None)
            | Ok true => site_request st w
            end
        end
    end.
End Site.
