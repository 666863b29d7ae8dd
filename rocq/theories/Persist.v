(** Model of the FITS input and output of response.py, template.py and kcorrect.py. *)
From Coq Require Import String Ascii List Arith Bool ZArith QArith.
From Verif Require Import Base Num Interp Utils Sed Response RespDict Fitter Kcorrect.
Import ListNotations.
Local Open Scope num_scope.
Local Open Scope nat_scope.

(** * Names in FITS tables

    kcorrect.py:741-760: the columns have 200 characters; reading them removes trailing white space (str.rstrip: the
    blank, codes 9-13 and the separators 28-31).  Simplification: names are ASCII without NUL. *)
Definition is_space (c : ascii) : bool :=
  let n := Ascii.nat_of_ascii c in Nat.eqb n 32 || (Nat.leb 9 n && Nat.leb n 13) || (Nat.leb 28 n && Nat.leb n 31).
Fixpoint rstrip (s : string) : string :=
  match s with
  | EmptyString => EmptyString
  | String c r => match rstrip r with
                  | EmptyString => if is_space c then EmptyString else String c EmptyString
                  | r' => String c r'
                  end
  end.
Definition stored_name (s : string) : string := rstrip (substring 0 200 s).

Section Persist.
  Context {T : Type} {N : Num T}.

  (** * Files

      A file is the list of its HDUs in order; [HNum] as in Sed.v, [HNames] a table with one column of names, [HData] the
      table DATA of kcorrect.py:729-736.  The empty primary HDU that astropy adds is left out.  HDU names are compared
      without regard to case by astropy; here they are upper case.  An image without elements is written without data. *)
  Inductive khdu :=
  | HNum (h : hdu T)
  | HNames (name : string) (l : list string)
  | HData (nz : nat) (rr : Z * Z) (abc : bool).
  Definition kfits := list khdu.
  Definition nums (f : kfits) : fits T := flat_map (fun h => match h with HNum h => [h] | _ => [] end) f.

  Definition image_hdu (name : string) (a : nd T) : khdu := HNum {| h_name := name; h_cols := [(""%string, a)] |}.
  (** hdul[name].data of an image. *)
  Definition image (f : kfits) (name : string) : res (nd T) :=
    do h <- get_hdu (nums f) name;
    do a <- col h ""%string;
    check negb (Nat.eqb (size (shp a)) 0) else Unmodelled;
    Ok a.
  Definition names (f : kfits) (name : string) : res (list string) :=
    match find (fun h => match h with HNames n _ => String.eqb n name | _ => false end) f with
    | Some (HNames _ l) => Ok l
    | _ => Raise KeyError
    end.
  Definition data_hdu (f : kfits) : res (nat * (Z * Z) * bool) :=
    match find (fun h => match h with HData _ _ _ => true | _ => false end) f with
    | Some (HData n r a) => Ok (n, r, a)
    | _ => Raise KeyError
    end.

  (** * Response.tofits and fromfits (response.py:293-312, 241-260)

      The columns keep the types of wave and response, so nothing is rounded.  The argument ext of tofits is not used by
      the code; fromfits reads the first extension.  A response of one sample beside several wavelengths, which failed reads
      can leave, is broadcast (line 307).  One wavelength (a subarray dtype of length 1) is not modelled. *)
  Definition resp_tofits (r : resp T) : res kfits :=
    match p_wave r, p_resp r with
    | Some w, Some y =>
      check negb (Nat.eqb (length w) 0) else IndexError;
      check negb (Nat.eqb (length y) 0) else IndexError;
      check Nat.eqb (length y) (length w) || Nat.eqb (length y) 1 else ValueError;
      check negb (Nat.eqb (length w) 1) else Unmodelled;
      let y' := if Nat.eqb (length y) 1 then repeat (hd n0 y) (length w) else y in
      Ok [HNum {| h_name := ""%string; h_cols := [("wave"%string, mk [1; length w] w); ("response"%string, mk [1; length w] y')] |}]
    | _, _ => Raise TypeError
    end.

  Section R.
    Variable cub : list T -> list T -> T -> T.
    Variable bq : (T -> T) -> T -> T -> res T.
    Variable sun vega : res (list T * list (basel_unit T)).

    (** [f] None: no such file.  The first row of each column.  The wavelengths are sorted and stored before the response
        column is read (response.py:255-257). *)
    Definition with_wave (r : resp T) (w : list T) : resp T :=
      {| p_wave := Some w; p_resp := p_resp r; p_interp := p_interp r; p_leff := p_leff r; p_solar := p_solar r;
         p_vega2ab := p_vega2ab r; p_fwhm := p_fwhm r |}.
    Definition resp_fromfits (r : resp T) (f : option kfits) : resp T * option exn :=
      match f with
      | None | Some [] => (r, Some OSError)
      | Some (HNum h :: _) =>
        match col h "wave"%string with
        | Raise e => (r, Some e)
        | Ok wave =>
          let w := dat (row 0 wave) in
          match (do y <- col h "response"%string; sort_pair w (dat (row 0 y))) with
          | Raise e => (with_wave r (map (fun k => nth k w n0) (argsort w)), Some e)
          | Ok wr => resp_setup cub bq sun vega (with_curve r (fst wr) (snd wr))
          end
        end
      | Some (_ :: _) => (r, Some KeyError)
      end.
  End R.

  (** * Template (template.py:387-431)

      The arrays are 1-D.  tofits writes the SED with extension name FLUX (template.py:416). *)
  Definition template_hdus (t : tmpl T) : kfits :=
    [image_hdu "INTSFH" (vec (t_intsfh t)); image_hdu "MREMAIN" (vec (t_mremain t)); image_hdu "METS" (vec (t_mets t));
     image_hdu "M300" (vec (t_m300 t)); image_hdu "M50" (vec (t_m50 t)); image_hdu "M1000" (vec (t_m1000 t))].
  Definition sed_file (s : sed T) : kfits := map HNum (sed_tofits s "FLUX").
  Definition template_file (s : sed T) (t : tmpl T) : kfits := sed_file s ++ template_hdus t.

  (** [Template(filename=, interpolate=)].  A missing or unreadable M50 gives zeros. *)
  Definition Template (f : option kfits) (interpolate : bool) : res (sed T * tmpl T) :=
    match f with
    | None | Some [] => Raise OSError
    | Some f =>
      do s <- sed_fromfits (nums f) "FLUX" interpolate;
      do intsfh <- image f "INTSFH";
      do mremain <- image f "MREMAIN";
      do mets <- image f "METS";
      do m300 <- image f "M300";
      do m1000 <- image f "M1000";
      let m50 := match image f "M50" with Ok a => a | Raise _ => map1 (fun x => (x * nlit 0)%num) m300 end in
      Ok (s, {| t_intsfh := dat intsfh; t_mremain := dat mremain; t_mets := dat mets; t_m50 := dat m50;
                t_m300 := dat m300; t_m1000 := dat m1000 |})
    end.

  (** * Kcorrect.tofits (kcorrect.py:704-770)

      [trunc] is the conversion of redshift_range to int32.  The reloaded nredshift, redshift_range and abcorrect are
      arrays with one row; nothing but the truth value of abcorrect is used. *)
  Variable trunc : T -> Z.

  Definition kcor_hdus (K : kcor T) : res kfits :=
    let F := k_fit K in
    do A <- (match f_A F with None => Raise TypeError | Some A => acall A (vec (f_zs F)) end);
    do Ao <- (match k_Aout K with None => Raise TypeError | Some A => acall A (vec (f_zs F)) end);
    Ok [HData (length (f_zs F)) (trunc (fst (k_rr K)), trunc (snd (k_rr K))) (f_abc F);
        image_hdu "REDSHIFTS" (vec (f_zs F));
        HNames "RESPONSES" (map stored_name (f_resp F));
        HNames "RESPONSES_OUT" (map stored_name (k_out K));
        HNames "RESPONSES_MAP" (map stored_name (k_map K));
        image_hdu "A" A; image_hdu "AOUT" Ao].

  (** The file a successful call leaves. *)
  Definition kcor_file (K : kcor T) : res kfits :=
    do h <- kcor_hdus K; Ok (template_file (f_sed (k_fit K)) (k_tmpl K) ++ h).

  (** What a reader can find at the file name at the successive moments of a call, None for no file.  Granularity: file
      operations and whole HDUs.  SED.tofits (template.py:182-224) removes the old file and writes HDU by HDU; the update
      of template.py:414-431 is written to a temporary file, the old file is removed and the new one renamed (astropy
      HDUList.flush); Kcorrect.tofits then writes all HDUs again to a new file of this name (writeto with overwrite). *)
  Definition rewrite (f : kfits) : list (option kfits) := None :: map (fun n => Some (firstn n f)) (seq 0 (S (length f))).
  Definition tofits_states (K : kcor T) (old : option kfits) : list (option kfits) :=
    let s := f_sed (k_fit K) in
    old :: rewrite (sed_file s) ++ [None; Some (template_file s (k_tmpl K))] ++
    match kcor_file K with Ok f => rewrite f | Raise _ => [] end.

  (** * Kcorrect.fromfits (kcorrect.py:772-811) *)

  Definition set_tmpl (K : kcor T) (s : sed T) (t : tmpl T) : kcor T :=
    let F := k_fit K in
    {| k_fit := {| f_kind := f_kind F; f_abc := f_abc F; f_resp := f_resp F; f_sed := s; f_zs := f_zs F; f_A := f_A F |};
       k_tmpl := t; k_out := k_out K; k_map := k_map K; k_Aout := k_Aout K; k_imap := k_imap K; k_rr := k_rr K |}.
  Definition set_data (K : kcor T) (rr : T * T) (abc : bool) : kcor T :=
    let F := k_fit K in
    {| k_fit := {| f_kind := f_kind F; f_abc := abc; f_resp := f_resp F; f_sed := f_sed F; f_zs := f_zs F; f_A := f_A F |};
       k_tmpl := k_tmpl K; k_out := k_out K; k_map := k_map K; k_Aout := k_Aout K; k_imap := k_imap K; k_rr := rr |}.
  Definition set_zs (K : kcor T) (zs : list T) : kcor T :=
    let F := k_fit K in
    {| k_fit := {| f_kind := f_kind F; f_abc := f_abc F; f_resp := f_resp F; f_sed := f_sed F; f_zs := zs; f_A := f_A F |};
       k_tmpl := k_tmpl K; k_out := k_out K; k_map := k_map K; k_Aout := k_Aout K; k_imap := k_imap K; k_rr := k_rr K |}.
  Definition set_responses (K : kcor T) (l : list string) : kcor T :=
    let F := k_fit K in
    {| k_fit := {| f_kind := f_kind F; f_abc := f_abc F; f_resp := l; f_sed := f_sed F; f_zs := f_zs F; f_A := f_A F |};
       k_tmpl := k_tmpl K; k_out := k_out K; k_map := k_map K; k_Aout := k_Aout K; k_imap := k_imap K; k_rr := k_rr K |}.
  Definition set_map (K : kcor T) (l : list string) : kcor T :=
    {| k_fit := k_fit K; k_tmpl := k_tmpl K; k_out := k_out K; k_map := l; k_Aout := k_Aout K; k_imap := k_imap K;
       k_rr := k_rr K |}.
  Definition set_out (K : kcor T) (l : list string) : kcor T :=
    {| k_fit := k_fit K; k_tmpl := k_tmpl K; k_out := l; k_map := k_map K; k_Aout := k_Aout K; k_imap := k_imap K;
       k_rr := k_rr K |}.
  Definition set_A (K : kcor T) (A : atab T) : kcor T :=
    let F := k_fit K in
    {| k_fit := {| f_kind := f_kind F; f_abc := f_abc F; f_resp := f_resp F; f_sed := f_sed F; f_zs := f_zs F; f_A := Some A |};
       k_tmpl := k_tmpl K; k_out := k_out K; k_map := k_map K; k_Aout := k_Aout K; k_imap := k_imap K; k_rr := k_rr K |}.
  Definition set_Aout (K : kcor T) (A : atab T) : kcor T :=
    {| k_fit := k_fit K; k_tmpl := k_tmpl K; k_out := k_out K; k_map := k_map K; k_Aout := Some A; k_imap := k_imap K;
       k_rr := k_rr K |}.
  Definition set_imap (K : kcor T) (l : list nat) : kcor T :=
    {| k_fit := k_fit K; k_tmpl := k_tmpl K; k_out := k_out K; k_map := k_map K; k_Aout := k_Aout K; k_imap := l;
       k_rr := k_rr K |}.

  Section L.
    Variable cub : list T -> list T -> T -> T.
    Variable bq : (T -> T) -> T -> T -> res T.
    Variable sun vega : res (list T * list (basel_unit T)).

    (** fromfits of the existing object [K], attribute by attribute; an exception leaves those already assigned.  imap is
        not assigned.  Result: response cache, object, exception. *)
    Definition kcor_fromfits (fs : @fsys T) (d : dict (resp T)) (K : kcor T) (f : option kfits)
      : dict (resp T) * kcor T * option exn :=
      match Template f false with
      | Raise e => (d, K, Some e)
      | Ok (s, t) =>
        let K := set_tmpl K s t in
        let f := match f with Some l => l | None => [] end in
        match data_hdu f with
        | Raise e => (d, K, Some e)
        | Ok (_, rr, abc) =>
          let K := set_data K (nlit (fst rr # 1), nlit (snd rr # 1)) abc in
          match image f "REDSHIFTS" with
          | Raise e => (d, K, Some e)
          | Ok zs =>
            let K := set_zs K (dat zs) in
            match names f "RESPONSES" with
            | Raise e => (d, K, Some e)
            | Ok l =>
              let K := set_responses K l in
              match names f "RESPONSES_MAP" with
              | Raise e => (d, K, Some e)
              | Ok l' =>
                let K := set_map K l' in
                match names f "RESPONSES_OUT" with
                | Raise e => (d, K, Some e)
                | Ok l'' =>
                  let K := set_out K l'' in
                  match load_all cub bq sun vega fs l d with
                  | (d, Some e) => (d, K, Some e)
                  | (d, None) =>
                    match (do A <- image f "A"; do Ao <- image f "AOUT"; Ok (A, Ao)) with
                    | Raise e => (d, K, Some e)
                    | Ok (A, Ao) =>
                      match mk_linear (dat zs) A with
                      | Raise e => (d, K, Some e)
                      | Ok A =>
                        let K := set_A K A in
                        match mk_linear (dat zs) Ao with
                        | Raise e => (d, K, Some e)
                        | Ok Ao => (d, set_Aout K Ao, None)
                        end
                      end
                    end
                  end
                end
              end
            end
          end
        end
      end.

    (** kcorrect.py:129-135, 169-183: [Kcorrect(filename=)].  The subclasses have no such argument.  Before fromfits the
        new object has no attributes; [fresh] stands for it, and none of its values is used. *)
    Definition fresh : kcor T :=
      {| k_fit := {| f_kind := Plain; f_abc := false; f_resp := [];
                     f_sed := {| s_rwave := []; s_rflux := vec []; s_wave := []; s_flux := vec []; s_z := n0; s_flag := false;
                                 s_interp := None; s_bin := false |};
                     f_zs := []; f_A := None |};
         k_tmpl := {| t_intsfh := []; t_mremain := []; t_mets := []; t_m50 := []; t_m300 := []; t_m1000 := [] |};
         k_out := []; k_map := []; k_Aout := None; k_imap := []; k_rr := (n0, n0) |}.
    Definition Kcorrect_file (fs : @fsys T) (d : dict (resp T)) (f : option kfits) : dict (resp T) * res (kcor T) :=
      match kcor_fromfits fs d fresh f with
      | (d, _, Some e) => (d, Raise e)
      | (d, K, None) => (d, do im <- make_imap (f_resp (k_fit K)) (k_map K); Ok (set_imap K im))
      end.
  End L.
End Persist.
Arguments khdu : clear implicits.
Arguments kfits : clear implicits.
