(** Model of the constants in src/lib.rs: LGW, W, LEN2 (src/lib.rs:70-72) and the twelve
    parameter-set modules (src/lib.rs:449-1026). Const generics of the Rust functions become fields
    of a record; the Rust constant [X] is the field [cX]. *)
From Verif Require Export Bytes.

(** src/lib.rs:70-72 *)
Definition LGW : N := 4.
(** src/lib.rs:71 *)
Definition W : N := 16.
(** src/lib.rs:72 *)
Definition LEN2 : N := 3.

(** which module of hashers.rs the parameter set imports (src/lib.rs:450, 500, 550, ...) *)
Inductive family := Shake | Sha2Cat1 | Sha2Cat35.

(** src/lib.rs:449-1026: the constants of a parameter-set module *)
Record Params := mkParams {
  cfam : family;
  cN : N; cH : N; cD : N; cHP : N; cA : N; cK : N; cM : N;
  cPK_LEN : N; cSIG_LEN : N }.

(** src/lib.rs:461 and the same line of every module: [const LEN: usize = 2 * N + 3] *)
Definition cLEN (p : Params) : N := 2 * cN p + 3.
(** src/lib.rs:470 and the same line of every module: [pub const SK_LEN: usize = PK_LEN * 2] *)
Definition cSK_LEN (p : Params) : N := cPK_LEN p * 2.

(** src/lib.rs:450-467 *)
Definition slh_dsa_sha2_128s : Params :=
  {| cfam := Sha2Cat1; cN := 16; cH := 63; cD := 7; cHP := 9; cA := 12; cK := 14; cM := 30;
     cPK_LEN := 32; cSIG_LEN := 7856 |}.
(** src/lib.rs:500-517 *)
Definition slh_dsa_shake_128s : Params :=
  {| cfam := Shake; cN := 16; cH := 63; cD := 7; cHP := 9; cA := 12; cK := 14; cM := 30;
     cPK_LEN := 32; cSIG_LEN := 7856 |}.
(** src/lib.rs:550-567 *)
Definition slh_dsa_sha2_128f : Params :=
  {| cfam := Sha2Cat1; cN := 16; cH := 66; cD := 22; cHP := 3; cA := 6; cK := 33; cM := 34;
     cPK_LEN := 32; cSIG_LEN := 17088 |}.
(** src/lib.rs:600-617 *)
Definition slh_dsa_shake_128f : Params :=
  {| cfam := Shake; cN := 16; cH := 66; cD := 22; cHP := 3; cA := 6; cK := 33; cM := 34;
     cPK_LEN := 32; cSIG_LEN := 17088 |}.
(** src/lib.rs:650-667 *)
Definition slh_dsa_sha2_192s : Params :=
  {| cfam := Sha2Cat35; cN := 24; cH := 63; cD := 7; cHP := 9; cA := 14; cK := 17; cM := 39;
     cPK_LEN := 48; cSIG_LEN := 16224 |}.
(** src/lib.rs:700-717 *)
Definition slh_dsa_shake_192s : Params :=
  {| cfam := Shake; cN := 24; cH := 63; cD := 7; cHP := 9; cA := 14; cK := 17; cM := 39;
     cPK_LEN := 48; cSIG_LEN := 16224 |}.
(** src/lib.rs:750-767 *)
Definition slh_dsa_sha2_192f : Params :=
  {| cfam := Sha2Cat35; cN := 24; cH := 66; cD := 22; cHP := 3; cA := 8; cK := 33; cM := 42;
     cPK_LEN := 48; cSIG_LEN := 35664 |}.
(** src/lib.rs:800-817 *)
Definition slh_dsa_shake_192f : Params :=
  {| cfam := Shake; cN := 24; cH := 66; cD := 22; cHP := 3; cA := 8; cK := 33; cM := 42;
     cPK_LEN := 48; cSIG_LEN := 35664 |}.
(** src/lib.rs:850-867 *)
Definition slh_dsa_sha2_256s : Params :=
  {| cfam := Sha2Cat35; cN := 32; cH := 64; cD := 8; cHP := 8; cA := 14; cK := 22; cM := 47;
     cPK_LEN := 64; cSIG_LEN := 29792 |}.
(** src/lib.rs:900-917 *)
Definition slh_dsa_shake_256s : Params :=
  {| cfam := Shake; cN := 32; cH := 64; cD := 8; cHP := 8; cA := 14; cK := 22; cM := 47;
     cPK_LEN := 64; cSIG_LEN := 29792 |}.
(** src/lib.rs:950-967 *)
Definition slh_dsa_sha2_256f : Params :=
  {| cfam := Sha2Cat35; cN := 32; cH := 68; cD := 17; cHP := 4; cA := 9; cK := 35; cM := 49;
     cPK_LEN := 64; cSIG_LEN := 49856 |}.
(** src/lib.rs:1000-1017 *)
Definition slh_dsa_shake_256f : Params :=
  {| cfam := Shake; cN := 32; cH := 68; cD := 17; cHP := 4; cA := 9; cK := 35; cM := 49;
     cPK_LEN := 64; cSIG_LEN := 49856 |}.

(** the parameter sets the crate exports (src/lib.rs:448-1026) *)
Definition all_params : list Params :=
  [slh_dsa_sha2_128s; slh_dsa_shake_128s;
   slh_dsa_sha2_128f; slh_dsa_shake_128f;
   slh_dsa_sha2_192s; slh_dsa_shake_192s;
   slh_dsa_sha2_192f; slh_dsa_shake_192f;
   slh_dsa_sha2_256s; slh_dsa_shake_256s;
   slh_dsa_sha2_256f; slh_dsa_shake_256f].

(** one of them (src/lib.rs:448-1026) *)
Definition valid (p : Params) : Prop := In p all_params.
