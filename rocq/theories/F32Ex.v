(** Concrete float32 objects for the examples: one response, two templates. *)
From Coq Require Import String List ZArith QArith.
From Verif Require Import Base Num F32 Interp Sed Response RespDict Fitter.
Import ListNotations.

Definition x_libm : libm := {| m_ln := fun x => x; m_log10 := fun x => x; m_exp := fun x => x; m_pow10 := fun x => x;
                               m_sinh := fun x => x; m_cosh := fun x => x |}.
Definition zs32 : list Z -> list b32 := map z32.
Definition x_resp : resp b32 :=
  {| p_wave := Some (zs32 [2; 3; 4; 5]%Z); p_resp := Some (zs32 [0; 1; 1; 0]%Z);
     p_interp := Some {| ix := zs32 [2; 3; 4; 5]%Z; iys := [zs32 [0; 1; 1; 0]%Z] |};
     p_leff := None; p_solar := None; p_vega2ab := None; p_fwhm := None |}.
Definition x_rows : list (list b32) := [zs32 [1; 1; 1; 1; 1]; zs32 [2; 3; 4; 5; 6]]%Z.
Definition x_sed : sed b32 :=
  let w := zs32 [1; 2; 3; 4; 6]%Z in
  {| s_rwave := w; s_rflux := mk [2; 5]%nat (concat x_rows); s_wave := w; s_flux := mk [2; 5]%nat (concat x_rows);
     s_z := z32 0; s_flag := false; s_interp := None; s_bin := false |}.
(** A spline that returns its second ordinate. *)
Definition x_cub (_ ys : list b32) (_ : b32) : b32 := nth 1%nat ys nan32.
Definition x_names : list string := ["u"; "g"]%string.
Definition x_dict : dict (resp b32) := [("u", x_resp); ("g", x_resp)]%string.
(** set_Amatrix() of Fitter(x_names, x_sed, [r0, r1], n) *)
Definition x_setup (r0 r1 : b32) (n : nat) : dict (resp b32) * fitter b32 * option exn :=
  @set_Amatrix b32 (Num_b32 x_libm) x_cub (fun _ _ _ => Raise ValueError) (Raise OSError) (Raise OSError) (fun _ => None)
    x_dict (@Fitter b32 (Num_b32 x_libm) Plain false x_names x_sed r0 r1 n).
Definition x_fitter (r0 r1 : b32) (n : nat) : fitter b32 := snd (fst (x_setup r0 r1 n)).

Definition zero32 : b32 := z32 0.
(** 0.7, 0.2, 1 and 2 in float32. *)
Definition r07 : b32 := q32 (7 # 10).
Definition r02 : b32 := q32 (2 # 10).
Definition one32 : b32 := z32 1.
Definition two32 : b32 := z32 2.
