(** The text that the table programs write: src/posit8_gen.cpp 62-99, src/posit10_gen.cpp 63-99,
    src/posit12_gen.cpp 51-69, src/binary8_gen.cpp 63-100; and the program src/softfloat_gen.cpp.

    The file is the text inserted in the stream [onf]. Opening the file and writing to it do not fail. [tn] is
    [typeid(X).name()], which the standard leaves to the implementation. *)
From Coq Require Import ZArith QArith List Bool String Ascii.
From Verif Require Import Res Cfg Configs Tab Gen Bin8 Print Soft.
Import ListNotations.
Open Scope Z_scope.
Open Scope string_scope.

(** '\n' and std::endl. *)
Definition nl : string := String "010" EmptyString.

(** The entries [i], ..., [i + n - 1] of an array, read in this order. *)
Fixpoint g_read (a : Z -> res Z) (i : Z) (n : nat) : res (list Z) :=
  match n with
  | O => Ok nil
  | S m => let! x := a i in let! r := g_read a (i + 1) m in Ok (x :: r)
  end.
(** [onf << (int)(a[i]) << ","] for every entry: posit8_gen.cpp 66-67 and so on. *)
Fixpoint g_entries (l : list Z) : string :=
  match l with
  | nil => ""
  | z :: r => decimal z ++ "," ++ g_entries r
  end.
(** An array of the program: element type, name, number of entries, contents. *)
Record g_array : Type := GArr { ga_type : string; ga_name : string; ga_size : Z; ga_at : Z -> res Z }.
(** One array up to its closing brace: posit8_gen.cpp 65-68. *)
Definition g_array_text (a : g_array) : res string :=
  let! l := g_read (ga_at a) 0 (Z.to_nat (ga_size a)) in
  Ok (ga_type a ++ " " ++ ga_name a ++ "[] = {" ++ nl ++ g_entries l ++ "};").
(** All of them; the last one is followed by the brace that closes the namespace: posit8_gen.cpp 68, 99. *)
Fixpoint g_arrays_text (l : list g_array) : res string :=
  match l with
  | nil => Ok ""
  | a :: r =>
    let! t := g_array_text a in
    let! u := g_arrays_text r in
    Ok (t ++ (match r with nil => "}" | _ => "" end) ++ " " ++ nl ++ u)
  end.
(** posit8_gen.cpp 63-64. *)
Definition g_file_text (ns tn : string) (l : list g_array) : res string :=
  let! t := g_arrays_text l in
  Ok ("#include <stdint.h>" ++ nl ++ "namespace " ++ ns ++ " {" ++ nl ++ "// type is " ++ tn ++ nl ++ t).

(** posit8_gen.cpp 62-99. *)
Definition posit8_arrays (rnd : Q -> Z) (ex : Z -> Z) : list g_array :=
    [GArr "int8_t" "opadd" (256 * 256) (g_opadd p8 rnd); GArr "int8_t" "opmul" (256 * 256) (g_opmul p8 rnd);
     GArr "int8_t" "opdiv" (256 * 256) (g_opdiv p8 rnd); GArr "int8_t" "opinv" 256 (g_opinv p8);
     GArr "int8_t" "opsquare" 256 (g_opsquare p8 rnd); GArr "int8_t" "opexp2" 256 (g_opexp2 p8 ex);
     GArr "int8_t" "ophalf" 256 (g_ophalf p8 rnd); GArr "uint32_t" "op2float" 256 (g_op2float p8)].
Definition posit8_gen (tn : string) (rnd : Q -> Z) (ex : Z -> Z) : res string :=
  g_file_text "posit8ns" tn (posit8_arrays rnd ex).
(** posit10_gen.cpp 63-99. *)
Definition posit10_arrays (rnd : Q -> Z) (ex : Z -> Z) : list g_array :=
    [GArr "int16_t" "opmul" (1024 * 1024) (g_opmul t10 rnd); GArr "int16_t" "opadd" (1024 * 1024) (g_opadd t10 rnd);
     GArr "int16_t" "opdiv" (1024 * 1024) (g_opdiv t10 rnd); GArr "int16_t" "opinv" 1024 (g_opinv t10);
     GArr "int16_t" "ophalf" 1024 (g_ophalf t10 rnd); GArr "int16_t" "opsquare" 1024 (g_opsquare t10 rnd);
     GArr "int16_t" "opexp2" 1024 (g_opexp2 t10 ex); GArr "uint32_t" "op2float" 1024 (g_op2float t10)].
Definition posit10_gen (tn : string) (rnd : Q -> Z) (ex : Z -> Z) : res string :=
  g_file_text "posit10ns" tn (posit10_arrays rnd ex).
(** posit12_gen.cpp 51-69. *)
Definition posit12_arrays (rnd : Q -> Z) (ex : Z -> Z) : list g_array :=
    [GArr "int16_t" "opinv" 4096 (g_opinv p12); GArr "int16_t" "opsquare" 4096 (g_opsquare p12 rnd);
     GArr "int16_t" "opexp2" 4096 (g_opexp2 p12 ex); GArr "uint32_t" "op2float" 4096 (g_op2float p12)].
Definition posit12_gen (tn : string) (rnd : Q -> Z) (ex : Z -> Z) : res string :=
  g_file_text "posit12ns" tn (posit12_arrays rnd ex).
(** binary8_gen.cpp 63-100. *)
Definition binary8_arrays (rnd : Q -> Z) (ex : Z -> Z) : list g_array :=
    [GArr "int8_t" "opadd" (256 * 256) (b8_opadd rnd); GArr "int8_t" "opmul" (256 * 256) (b8_opmul rnd);
     GArr "int8_t" "opdiv" (256 * 256) (b8_opdiv rnd); GArr "int8_t" "opinv" 256 (b8_opinv rnd);
     GArr "int8_t" "opsquare" 256 (b8_opsquare rnd); GArr "int8_t" "opexp2" 256 (b8_opexp2 ex);
     GArr "int8_t" "ophalf" 256 (b8_ophalf rnd); GArr "uint32_t" "op2float" 256 b8_op2float].
Definition binary8_gen (tn : string) (rnd : Q -> Z) (ex : Z -> Z) : res string :=
  g_file_text "binary8ns" tn (binary8_arrays rnd ex).

(** softfloat_gen.cpp 9-18: the entries of opexp2; [ex] is exp2 on floats, [rnd] the rounding to each format. The casts to
    float16_t and uint16_t keep the bits. *)
Definition sf16_entry (rnd : Z -> Z -> Q -> Z) (ex : Z -> Z) (i : Z) : Z :=
  sf_of_float rnd S16 (ex (sf_to_float rnd S16 i)).
Definition sf16_opexp2 (rnd : Z -> Z -> Q -> Z) (ex : Z -> Z) : Z -> res Z :=
  g_fill (fun i => i) (fun i => Ok (sf16_entry rnd ex i)) (map Z.of_nat (seq 0 (Z.to_nat 65536))) g_new.
(** softfloat_gen.cpp 19-24. *)
Definition g_array_file_text (a : g_array) : res string :=
  let! t := g_array_text a in Ok ("#include <stdint.h>" ++ nl ++ t ++ " " ++ nl).
Definition softfloat_gen (rnd : Z -> Z -> Q -> Z) (ex : Z -> Z) : res string :=
  g_array_file_text (GArr "uint16_t" "float16_opexp2" (256 * 256) (sf16_opexp2 rnd ex)).
(** tests/testsoftfloat.cpp 7-16, exp2t of a softfloat16: the entry at the bits of the number. *)
Definition sf16_exp2 (rnd : Z -> Z -> Q -> Z) (ex : Z -> Z) (v : Z) : res Z := g_get 65536 (sf16_opexp2 rnd ex) v.
