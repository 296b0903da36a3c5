(** Specification vocabulary for authentication (C33-C37). *)
From Verif Require Import Base GoStrings M_Auth.

(** RFC 4648 base64 with padding, as a client writes it *)
Definition digits64 : bytes := B"ABCDEFGHIJKLMNOPQRSTUVWXYZabcdefghijklmnopqrstuvwxyz0123456789+/".
Definition sextet (n : nat) : ascii := nth n digits64 "="%char.
Definition val (c : ascii) : nat := nat_of_ascii c.
Fixpoint b64_encode (s : bytes) : bytes :=
  match s with
  | [] => []
  | [x] => [sextet (val x / 4); sextet (val x mod 4 * 16); "="%char; "="%char]
  | [x; y] => [sextet (val x / 4); sextet (val x mod 4 * 16 + val y / 16);
               sextet (val y mod 16 * 4); "="%char]
  | x :: y :: z :: s' =>
      sextet (val x / 4) :: sextet (val x mod 4 * 16 + val y / 16)
      :: sextet (val y mod 16 * 4 + val z / 64) :: sextet (val z mod 64) :: b64_encode s'
  end.

(** [base64 t s]: the text [t] stands for the bytes [s].  Four digits are a number in base 64,
    which three bytes write in base 256; a last group may have two or three digits and
    padding, bits left over in it are dropped. *)
Definition digit64 (a : ascii) (x : nat) : Prop := nth_error digits64 x = Some a.
Inductive base64 : bytes -> bytes -> Prop :=
| b64_none : base64 [] []
| b64_one a b x y p : digit64 a x -> digit64 b y -> val p = (x * 64 + y) / 16 ->
    base64 [a; b; "="%char; "="%char] [p]
| b64_two a b c x y z p q : digit64 a x -> digit64 b y -> digit64 c z ->
    val p * 256 + val q = ((x * 64 + y) * 64 + z) / 4 -> base64 [a; b; c; "="%char] [p; q]
| b64_three a b c d x y z w p q r t s : digit64 a x -> digit64 b y -> digit64 c z -> digit64 d w ->
    (val p * 256 + val q) * 256 + val r = ((x * 64 + y) * 64 + z) * 64 + w -> base64 t s ->
    base64 (a :: b :: c :: d :: t) (p :: q :: r :: s).
(** line breaks in the text are ignored *)
Definition base64_text (t s : bytes) : Prop :=
  base64 (filter (fun c => negb (Ascii.eqb c (ch 10) || Ascii.eqb c (ch 13))) t) s.

(** the authentication scheme name in any letter case *)
Definition basic_any_case (s : bytes) : Prop := map lower_ascii s = B"basic".

(** [auth] is a Basic authorization header whose decoded credentials are [cred] *)
Definition basic_header (auth cred : bytes) : Prop :=
  exists scheme token, auth = scheme ++ " "%char :: token /\
    (basic_any_case scheme \/
     (* bytes.EqualFold also accepts the long s, U+017F, for 's' *)
     exists x y, scheme = x ++ [ch 197; ch 191] ++ y /\ basic_any_case (x ++ "s"%char :: y)) /\
    base64_text token cred.

(** the user name and password carried by a header, by the letter of RFC 7617: the
    user name ends at the first colon and the rest is the password *)
Definition carries (auth user password : bytes) : Prop :=
  basic_header auth (user ++ ":"%char :: password) /\ ~ In ":"%char user.

(** the part of a password up to its first colon *)
Fixpoint upto_colon (p : bytes) : bytes :=
  match p with
  | [] => []
  | c :: p' => if Ascii.eqb c ":" then [] else c :: upto_colon p'
  end.

(** authentication lets the request through *)
Definition admitted (uni : bytes -> bytes) (h : base_auth) (rq : request) : Prop :=
  snd (check uni h rq) = Ok true.
(** a log function, if one is configured, can be called *)
Definition log_ok (h : base_auth) : Prop := a_use_log h = true -> a_log_nil h = false.
