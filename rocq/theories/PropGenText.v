(** C146: the files the table programs write. *)
From Coq Require Import ZArith QArith List String Ascii.
From Verif Require Import Res Cfg Configs SpecFloat SpecGen SpecGenText FloatOps PositF PositFProof4 GenProof4 Tab Gen Bin8 GenText GenTextProof2 Tbl8 Tbl12.
Import ListNotations.
Open Scope Z_scope.
Open Scope string_scope.

Theorem C146_posit8 tn rnd ex : one_line tn -> rounding 8 23 rnd -> exp2_float 8 23 ex ->
  exists text l, posit8_gen tn rnd ex = Ok text /\ read_file text = Some ("posit8ns", l) /\ Datatypes.length l = 8%nat /\
  defines l "int8_t" "opadd" 65536 (g_opadd p8 rnd) /\ defines l "int8_t" "opmul" 65536 (g_opmul p8 rnd) /\ defines l "int8_t" "opdiv" 65536 (g_opdiv p8 rnd) /\
  defines l "int8_t" "opinv" 256 (g_opinv p8) /\ defines l "int8_t" "opsquare" 256 (g_opsquare p8 rnd) /\ defines l "int8_t" "opexp2" 256 (g_opexp2 p8 ex) /\
  defines l "int8_t" "ophalf" 256 (g_ophalf p8 rnd) /\ defines l "uint32_t" "op2float" 256 (g_op2float p8).
Proof. exact (posit8_reads tn rnd ex). Qed.
Print Assumptions C146_posit8.

Theorem C146_posit10 tn rnd ex : one_line tn -> rounding 8 23 rnd -> exp2_float 8 23 ex ->
  exists text l, posit10_gen tn rnd ex = Ok text /\ read_file text = Some ("posit10ns", l) /\ Datatypes.length l = 8%nat /\
  defines l "int16_t" "opadd" 1048576 (g_opadd t10 rnd) /\ defines l "int16_t" "opmul" 1048576 (g_opmul t10 rnd) /\ defines l "int16_t" "opdiv" 1048576 (g_opdiv t10 rnd) /\
  defines l "int16_t" "opinv" 1024 (g_opinv t10) /\ defines l "int16_t" "opsquare" 1024 (g_opsquare t10 rnd) /\ defines l "int16_t" "opexp2" 1024 (g_opexp2 t10 ex) /\
  defines l "int16_t" "ophalf" 1024 (g_ophalf t10 rnd) /\ defines l "uint32_t" "op2float" 1024 (g_op2float t10).
Proof. exact (posit10_reads tn rnd ex). Qed.
Print Assumptions C146_posit10.

Theorem C146_posit12 tn rnd ex : one_line tn -> rounding 8 23 rnd -> exp2_float 8 23 ex ->
  exists text l, posit12_gen tn rnd ex = Ok text /\ read_file text = Some ("posit12ns", l) /\ Datatypes.length l = 4%nat /\
  defines l "int16_t" "opinv" 4096 (g_opinv p12) /\ defines l "int16_t" "opsquare" 4096 (g_opsquare p12 rnd) /\ defines l "int16_t" "opexp2" 4096 (g_opexp2 p12 ex) /\
  defines l "uint32_t" "op2float" 4096 (g_op2float p12).
Proof. exact (posit12_reads tn rnd ex). Qed.
Print Assumptions C146_posit12.

Theorem C146_binary8 tn rnd ex : one_line tn -> rounding 8 23 rnd -> exp2_float 8 23 ex ->
  exists text l, binary8_gen tn rnd ex = Ok text /\ read_file text = Some ("binary8ns", l) /\ Datatypes.length l = 8%nat /\
  defines l "int8_t" "opadd" 65536 (b8_opadd rnd) /\ defines l "int8_t" "opmul" 65536 (b8_opmul rnd) /\ defines l "int8_t" "opdiv" 65536 (b8_opdiv rnd) /\
  defines l "int8_t" "opinv" 256 (b8_opinv rnd) /\ defines l "int8_t" "opsquare" 256 (b8_opsquare rnd) /\ defines l "int8_t" "opexp2" 256 (b8_opexp2 ex) /\
  defines l "int8_t" "ophalf" 256 (b8_ophalf rnd) /\ defines l "uint32_t" "op2float" 256 b8_op2float.
Proof. exact (binary8_reads tn rnd ex). Qed.
Print Assumptions C146_binary8.

Theorem C146_posit8_shipped tn rnd ex : one_line tn -> rounding 8 23 rnd -> exp2_float 8 23 ex ->
  exists text l, posit8_gen tn rnd ex = Ok text /\ read_file text = Some ("posit8ns", l) /\
  defines l "int8_t" "opadd" 65536 (s8_entry Tbl8.opadd_rows) /\ defines l "int8_t" "opmul" 65536 (s8_entry Tbl8.opmul_rows) /\ defines l "int8_t" "opdiv" 65536 (s8_entry Tbl8.opdiv_rows) /\
  defines l "int8_t" "opinv" 256 (s8_entry Tbl8.opinv_rows) /\ defines l "int8_t" "opsquare" 256 (s8_entry Tbl8.opsquare_rows) /\ defines l "int8_t" "opexp2" 256 (s8_entry Tbl8.opexp2_rows) /\
  defines l "int8_t" "ophalf" 256 (s8_entry Tbl8.ophalf_rows) /\ defines l "uint32_t" "op2float" 256 s8_op2float.
Proof. exact (posit8_shipped tn rnd ex). Qed.
Print Assumptions C146_posit8_shipped.

Theorem C146_posit12_shipped tn rnd ex : one_line tn -> rounding 8 23 rnd -> exp2_float 8 23 ex ->
  exists text l, posit12_gen tn rnd ex = Ok text /\ read_file text = Some ("posit12ns", l) /\
  defines l "int16_t" "opinv" 4096 (s12_entry Tbl12.opinv_rows) /\ defines l "int16_t" "opsquare" 4096 (s12_entry Tbl12.opsquare_rows) /\ defines l "uint32_t" "op2float" 4096 s12_op2float.
Proof. exact (posit12_shipped tn rnd ex). Qed.
Print Assumptions C146_posit12_shipped.

(** The hypotheses hold of round to nearest, of an exponential that rounds down and of the name gcc gives the type; and
    what the reader makes of a small file, and of one without a comma between two entries. *)
Definition lf : string := String "010"%char EmptyString.
Example C146_ex : one_line "5PositIaLi8ELi0EhL13PositSpecTrait0EE" /\ rounding 8 23 (rne 8 23) /\ exp2_float 8 23 ex_floor /\
  read_file ("#include <stdint.h>" ++ lf ++ "namespace n {" ++ lf ++ "// type is T" ++ lf ++ "int8_t opinv[] = {" ++ lf ++ "0,-128,17,}; " ++ lf ++
    "uint32_t op2float[] = {" ++ lf ++ "4286578688,};} " ++ lf) = Some ("n", [("int8_t", "opinv", [0; -128; 17]); ("uint32_t", "op2float", [4286578688])]) /\
  read_file ("#include <stdint.h>" ++ lf ++ "namespace n {" ++ lf ++ "// type is T" ++ lf ++ "int8_t opinv[] = {" ++ lf ++ "0 17,};} " ++ lf) = None.
Proof. split; [reflexivity|]. split; [exact (rnek_rounding FFloat)|]. split; [exact ex_floor_faithful|]. split; vm_compute; reflexivity. Qed.
