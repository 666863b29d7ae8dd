(** Model of src/kcorrect/utils.py. *)
From Coq Require Import List Arith Bool ZArith QArith.
From Verif Require Import Base Num.
Import ListNotations.
Local Open Scope nat_scope.
Local Open Scope res_scope.

Section Utils.
  Context {T : Type} {N : Num T}.
  Local Open Scope num_scope.

  (** utils.py:13-32 [sed_ab], one wavelength:
      ab = 3.631e-2 / wave**2 * cspeed *)
  Definition sed_ab1 (w : T) : T :=
    nlit (3631 # 100000) / nsq w * nlit (299792 # 100000).
  (** utils.py:13-32 [sed_ab] on an array of wavelengths. *)
  Definition sed_ab (wave : list T) : list T := map sed_ab1 wave.

  (** utils.py:35-112 [read_basel].  The file is the list of its blank-separated
      words (utils.py:69-73); [pf], [pint] are np.float32(str) and np.int32(str).
      [nwave] is the hard-coded 1221 (utils.py:75); it is a parameter so that
      small files can serve as examples.  The int32/float32 range of the parsed
      values is left to [pf]/[pint].  When the file has fewer than [nwave] words
      nunits is negative and np.zeros raises ValueError (utils.py:82). *)
  Record basel_unit (W : Type) := { b_modelno : Z; b_teff : W; b_logg : W; b_mh : W;
                                    b_vturb : W; b_xh : W; b_flux : list W }.
  Definition read_basel_n {W : Type} (pf : W -> res T) (pint : W -> res Z) (dw : W)
             (nwave : nat) (words : list W)
    : res (list T * list (basel_unit T)) :=
    do wave <- mapM pf (firstn nwave words);
    check (Nat.leb nwave (length words)) else ValueError;
    let nunits := ((length words - nwave) / (nwave + 6))%nat in
    do units <- mapM (fun unit =>
        let start := (nwave + unit * (nwave + 6))%nat in
        do modelno <- pint (nth start words dw);
        do teff <- pf (nth (start + 1) words dw);
        do logg <- pf (nth (start + 2) words dw);
        do mh <- pf (nth (start + 3) words dw);
        do vturb <- pf (nth (start + 4) words dw);
        do xh <- pf (nth (start + 5) words dw);
        do flux <- mapM pf (firstn nwave (skipn (start + 6) words));
        Ok {| b_modelno := modelno; b_teff := teff; b_logg := logg; b_mh := mh;
              b_vturb := vturb; b_xh := xh; b_flux := flux |}) (seq 0 nunits);
    Ok (wave, units).
  Definition read_basel {W : Type} (pf : W -> res T) (pint : W -> res Z) (dw : W)
             (words : list W) := read_basel_n pf pint dw 1221 words.

  (** The loop "for i, c in enumerate(facs): out[..., i] = f(src[..., i], c)"
      of utils.py:176-177, 180-181, starting at column [i]. *)
  Fixpoint col_loop {C : Type} (f : T -> C -> T) (src : nd T) (facs : list C) (i : nat) (out : nd T)
    : res (nd T) :=
    match facs with
    | [] => Ok out
    | c :: r =>
        do col <- get_last i n0 src;
        do out' <- set_last i n0 (map1 (fun x => cst (f x c)) col) out;
        col_loop f src r (S i) out'
    end.

  (** utils.py:115-186 [sdss_ab_correct].  The optional second component of the
      result is the corrected ivar (utils.py:183-186).  [raise("...")] is a
      TypeError: a str is not an exception. *)
  Definition sdss_ab_correct (maggies : nd T) (ivar : option (nd T)) (abfix : nd T)
    : res (nd T * option (nd T)) :=
    let maggies := map1 cst maggies in
    let ivar := option_map (map1 cst) ivar in
    check (match ivar with
           | Some iv => shape_eqb (shp maggies) (shp iv)
           | None => true end) else TypeError;
    let abfix := map1 cst abfix in
    check (shape_eqb (shp abfix) [5%nat]) else TypeError;
    let abfac := map1 (fun a => npow10 (nlit (-(2) # 5) * a)) abfix in
    if Nat.eqb (ndim maggies) 1 then
      check (Nat.eqb (size (shp maggies)) 5) else TypeError;
      do ab_maggies <- bin nmul n0 n0 maggies abfac;
      match ivar with
      | Some iv => do ab_ivar <- bin ndiv n0 n0 iv (map1 nsq abfac);
                   Ok (ab_maggies, Some ab_ivar)
      | None => Ok (ab_maggies, None)
      end
    else
      do ab_maggies <- col_loop nmul maggies (dat abfac) 0 (full (shp maggies) n0);
      match ivar with
      | Some iv => do ab_ivar <- col_loop (fun x c => x / nsq c) iv (dat abfac) 0
                                          (full (shp maggies) n0);
                   Ok (ab_maggies, Some ab_ivar)
      | None => Ok (ab_maggies, None)
      end.

  (** utils.py:116, the default abfix. *)
  Definition default_abfix : nd T :=
    vec (map nlit [-(36) # 1000; 12 # 1000; 10 # 1000; 28 # 1000; 40 # 1000]).

  (** The update of one entry in utils.py:226-232 / 234-238.  [store] is the
      conversion to the dtype of the ivar array on assignment. *)
  Definition floor_entry (store : T -> T) (fl m iv : T) : T :=
    if ngtb iv n0 then
      let ferr := n1 / (nabs m * nsqrt iv) in
      if ferr <? fl then store (n1 / nsq (nabs m * fl)) else iv
    else iv.

  (** utils.py:189-240 [error_floor].  [np.array] copies and keeps the dtype,
      so [store] is the identity-like float store or an integer truncation.
      Simplification: the index arrays iok / ioklow of the 2-D branch
      (utils.py:227-232) are fused into a conditional per entry.  maggies of
      more than two dimensions, or a floor that is not 1-D, are not modelled. *)
  Definition error_floor (store : T -> T) (floor maggies ivar : nd T) : res (nd T) :=
    match shp maggies with
    | [] => Raise IndexError
    | _ =>
      check (Nat.eqb (ndim floor) 1) else Unmodelled;
      check (Nat.eqb (lastd (shp maggies)) (size (shp floor))) else TypeError;
      check (shape_eqb (shp maggies) (shp ivar)) else TypeError;
      check (Nat.leb (ndim maggies) 2) else Unmodelled;
      foldM (fun iv i =>
               do mcol <- get_last i n0 maggies;
               do icol <- get_last i n0 iv;
               let fl := nth i (dat floor) n0 in
               set_last i n0 (mk (shp icol) (zip (floor_entry store fl) (dat mcol) (dat icol))) iv)
            (seq 0 (size (shp floor))) ivar
    end.

  (** utils.py:293-294, the softening parameters. *)
  Definition b0 : list T :=
    map (fun q => cst (nlit q))
        [14 # 100000000000; 9 # 100000000000; 12 # 100000000000;
         18 # 100000000000; 74 # 100000000000].

  (** utils.py:298-300, argument of sinh/cosh. *)
  Definition asinh_arg (b mag : T) : T :=
    nopp (nln b) - nlit (2 # 5) * nln (nlit (10 # 1)) * mag.
  (** utils.py:298-300 *)
  Definition asinh_maggies1 (b mag : T) : T := nlit (2 # 1) * b * nsinh (asinh_arg b mag).
  (** utils.py:306-310 *)
  Definition asinh_ivar1 (b mag err : T) : T :=
    n1 / nsq (nlit (2 # 1) * b * ncosh (asinh_arg b mag) * nlit (2 # 5)
              * nln (nlit (10 # 1)) * err).

  (** utils.py:243-315 [sdss_asinh_to_maggies].  The second component is the
      ivar, present iff mag_err is given (utils.py:312-315). *)
  Definition sdss_asinh_to_maggies (mag : nd T) (mag_err extinction : option (nd T))
    : res (nd T * option (nd T)) :=
    let mag := map1 cst mag in
    let mag_err := option_map (map1 cst) mag_err in
    check (match mag_err with
           | Some e => shape_eqb (shp mag) (shp e) | None => true end) else TypeError;
    let extinction := option_map (map1 cst) extinction in
    check (match extinction with
           | Some e => shape_eqb (shp mag) (shp e) | None => true end) else TypeError;
    let ext := match extinction with Some e => e | None => full (shp mag) n0 end in
    match shp mag with
    | [] => Raise IndexError
    | _ =>
      check (Nat.eqb (lastd (shp mag)) 5) else TypeError;
      do maggies <- foldM (fun out k =>
          let b := nth k b0 n0 in
          do mcol <- get_last k n0 mag;
          do out <- set_last k n0 (map1 (fun m => cst (asinh_maggies1 b m)) mcol) out;
          do ocol <- get_last k n0 out;
          do ecol <- get_last k n0 ext;
          do v <- bin (fun f e => cst (f * npow10 (nlit (2 # 5) * e))) n0 n0 ocol ecol;
          set_last k n0 v out) (seq 0 5) (full (shp mag) n0);
      match mag_err with
      | None => Ok (maggies, None)
      | Some err =>
        do ivar <- foldM (fun out k =>
          let b := nth k b0 n0 in
          do mcol <- get_last k n0 mag;
          do ecol <- get_last k n0 err;
          do v <- bin (fun m e => cst (asinh_ivar1 b m e)) n0 n0 mcol ecol;
          set_last k n0 v out) (seq 0 5) (full (shp mag) n0);
        Ok (maggies, Some ivar)
      end
    end.

  (** utils.py:318-379 [maggies2flambda], after the responses have been looked
      up: [lambda_eff] is the list of effective wavelengths (utils.py:356-362;
      the look-up itself is [maggies2flambda] in RespDict.v). *)
  Definition maggies2flambda_core (lambda_eff : list T) (maggies : nd T) (ivar : option (nd T))
    : res (list T * nd T * option (nd T)) :=
    let wave := map cst lambda_eff in
    let m2f := sed_ab wave in
    if Nat.eqb (ndim maggies) 1 then
      do flambda <- bin nmul n0 n0 (vec m2f) maggies;
      match ivar with
      | Some iv => do fivar <- bin ndiv n0 n0 iv (vec (map nsq m2f));
                   Ok (wave, flambda, Some fivar)
      | None => Ok (wave, flambda, None)
      end
    else
      match shp maggies with
      | [] => Raise IndexError
      | n :: _ =>
        let ones := full [n] n1 in
        do flambda <- bin nmul n0 n0 (outer nmul ones (vec m2f)) maggies;
        match ivar with
        | Some iv =>
            do fivar <- bin nmul n0 n0 (outer nmul ones (vec (map (fun f => n1 / nsq f) m2f))) iv;
            Ok (wave, flambda, Some fivar)
        | None => Ok (wave, flambda, None)
        end
      end.
End Utils.
