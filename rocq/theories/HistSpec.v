(** Histories of operations on Modes objects. *)
Require Import ZArith List Reals.
From Coquelicot Require Import Complex.
From Verif Require Import Base CBase IndexModel DRep WignerModel SWSHModel Wigner3jModel ModesModel ModesSpec MultModel.
Import ListNotations.
Open Scope Z_scope.

(** The operators of derivatives.py, and negation. *)
Definition unary_ops : list (heap -> modes -> res (heap * modes)) :=
  [Lsquared; Lz; Lplus; Lminus; Rsquared; Rz; Rplus; Rminus; eth; ethbar; negative].
(** Operations with a scalar or array operand. *)
Definition scalar_ops : list (heap -> modes -> scalars -> res (heap * modes)) :=
  [mul_scalar; div_scalar; multiply_scalar; add_scalar Cplus; add_scalar Cminus; add_scalar (fun x y => y - x)%C;
   add_method_scalar Cplus; add_method_scalar Cminus].

(** One step of a program: the memory and the Modes objects it holds.  Any object may share memory with others and with
    arrays of the caller.  A step that raises is not a step. *)
Inductive step : heap * list modes -> heap * list modes -> Prop :=
| st_array h ms ld w data : step (h, ms) (fst (alloc h ld w data), ms)
| st_new h ms a im args kw h' r : (buf a < next h)%nat -> Modes_new h (InArr a) im args kw = Ok (h', r) -> step (h, ms) (h', r :: ms)
| st_conjugate h ms m h' r : In m ms -> conjugate h m false = Ok (h', r) -> step (h, ms) (h', r :: ms)
| st_conjugate_inplace h ms1 m ms2 h' r : conjugate h m true = Ok (h', r) -> step (h, ms1 ++ m :: ms2) (h', ms1 ++ r :: ms2)
| st_real h ms m h' r : In m ms -> real_func h m false = Ok (h', r) -> step (h, ms) (h', r :: ms)
| st_real_inplace h ms1 m ms2 h' r : real_func h m true = Ok (h', r) -> step (h, ms1 ++ m :: ms2) (h', ms1 ++ r :: ms2)
| st_imag h ms m h' r : In m ms -> imag_func h m false = Ok (h', r) -> step (h, ms) (h', r :: ms)
| st_imag_inplace h ms1 m ms2 h' r : imag_func h m true = Ok (h', r) -> step (h, ms1 ++ m :: ms2) (h', ms1 ++ r :: ms2)
| st_unary op h ms m h' r : In op unary_ops -> In m ms -> op h m = Ok (h', r) -> step (h, ms) (h', r :: ms)
| st_add h ms f g subtraction h' r : In f ms -> In g ms -> add h f g subtraction = Ok (h', r) -> step (h, ms) (h', r :: ms)
| st_np_add h ms f g subtraction h' r : In f ms -> In g ms -> np_add h f g subtraction = Ok (h', r) -> step (h, ms) (h', r :: ms)
| st_subtract h ms f g h' r : In f ms -> In g ms -> subtract h f g = Ok (h', r) -> step (h, ms) (h', r :: ms)
| st_scalar op h ms m x h' r : In op scalar_ops -> In m ms -> op h m x = Ok (h', r) -> step (h, ms) (h', r :: ms)
| st_multiply w gs gm h ms f g tr h' r : In f ms -> In g ms -> multiply w gs gm h f g tr = Ok (h', r) -> step (h, ms) (h', r :: ms)
| st_truncate h ms m L r : In m ms -> truncate_ell m L = Ok r -> step (h, ms) (h, r :: ms)
| st_copy h ms m : In m ms -> step (h, ms) (fst (copy h m), snd (copy h m) :: ms).

(** Everything a program can reach: it starts with no Modes object and any memory. *)
Inductive reachable : heap * list modes -> Prop :=
| re_start h : reachable (h, [])
| re_step s t : reachable s -> step s t -> reachable t.
