(** Specification of the example programs (C169): the pages they have. *)
From Verif Require Import Base GoStrings M_Tree M_Examples.

(** [page method segments before main after parameters] *)
Definition page_table := bytes -> list bytes -> list nat -> nat -> list nat -> args -> Prop.

Inductive pages_server : page_table :=
| S_group m : In m [B"GET"; B"POST"] -> pages_server m [B"private_group"] [s1; s2] m_group [s9; s10] []
| S_post : pages_server (B"POST") [] [hA1; hA2; hA3] m_post [] []
| S_posta : pages_server (B"POST") [B"a"] [hA1; hA2; hA3] m_posta [] []
| S_get : pages_server (B"GET") [] [hB1; hB2; hB3] m_get [hB9; hB10] []
| S_geta : pages_server (B"GET") [B"a"] [hB1; hB2; hB3] m_geta [hB9; hB10] [].

Inductive pages_1 : page_table :=
| P_group m : In m [B"GET"; B"POST"] -> pages_1 m [B"private_group"] [s1; s2] m_group [s9; s10] []
| P_post : pages_1 (B"POST") [] [hA1; hA2; hA3] m_post [] []
| P_posta m : In m [B"GET"; B"POST"] -> pages_1 m [B"a"] [hA1; hA2; hA3] m_posta [] []
| P_get : pages_1 (B"GET") [] [hB1; hB2; hB3] m_get [hB9; hB10] []
| P_b : pages_1 (B"GET") [B"b"] [hB1; hB2; hB3] m_b [hB9; hB10] []
| P_c : pages_1 (B"GET") [B"c"] [] m_c [hB9; hB10] []
| P_user id : pages_1 (B"GET") [B"user"; id] [] m_user [hB9; hB10] [(B"user_id", id)]
| P_action id action : pages_1 (B"GET") [B"user"; id; action] [] m_action [hB9; hB10] [(B"user_id", id); (B"action", action)].
