(** matlab/testfloat11.m: the sum of two posits of a table, and the posit found for it. *)
From Coq Require Import ZArith QArith List.
From Verif Require Import FloatOps Dump.
Open Scope Z_scope.

(** testfloat11.m 8, 14, 18: the row of the table with its number; None is an index out of range, an error. *)
Record entry : Set := Ent { e_index : Z; e_signed : Z; e_unsigned : Z; e_float : Z }.
Definition t_entry (t : table) (i : Z) : option entry :=
  match m_at (t_signed t) i, m_at (t_unsigned t) i, m_at (t_float t) i with
  | Some s, Some u, Some f => Some (Ent i s u f)
  | _, _, _ => None
  end.
(** The fields of r; a field that is not set is None. *)
Record test : Set := Test { r_a : option entry; r_b : option entry; r_s : option Z; r_y : option entry; r_diff : option Z }.

Section rnd.
Variable rnd : Q -> Z.
(** testfloat11.m 1-20; None stands for an error. The argument omode is not used. *)
Definition testfloat11 (t : table) (m : mode) (a b : Z) : option test :=
  match toindex rnd t m a with
  | None => Some (Test None None None None None)
  | Some ia =>
    match t_entry t ia with
    | None => None
    | Some ea =>
      match toindex rnd t m b with
      | None => Some (Test (Some ea) None None None None)
      | Some ib =>
        match t_entry t ib, fromindex t MFloat ia, fromindex t MFloat ib with
        | Some eb, Some x, Some y =>
          let s := f_add 11 52 rnd x y in
          match toindex rnd t MFloat s with
          | None => Some (Test (Some ea) (Some eb) (Some s) None None)
          | Some iy =>
            match t_entry t iy with
            | Some ey => Some (Test (Some ea) (Some eb) (Some s) (Some ey) (Some (m_sub rnd s (e_float ey))))
            | None => None
            end
          end
        | _, _, _ => None
        end
      end
    end
  end.
End rnd.
