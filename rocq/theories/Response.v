(** Model of the Response class of response.py. *)
From Coq Require Import String List Arith Bool QArith.
From Verif Require Import Base Num Interp Utils Sed.
Import ListNotations.
Local Open Scope num_scope.

Section Response.
  Context {T : Type} {N : Num T}.
  (** Oracles: the cubic spline (Interp.v) and scipy.optimize.brentq(f, a, b). *)
  Variable cub : list T -> list T -> T -> T.
  Variable bq : (T -> T) -> T -> T -> res T.

  (** response.py:188-213, attributes of a Response.  None is Python's None.  [p_fwhm] holds
      (fwhm_low, fwhm_high, fwhm), which are always assigned together (response.py:478-480).
      [p_vega2ab] does not exist before set_vega2ab has run; None here. *)
  Record resp := {
    p_wave : option (list T); p_resp : option (list T); p_interp : option (interp1 T);
    p_leff : option T; p_solar : option T; p_vega2ab : option T; p_fwhm : option (T * T * T) }.

  (** [Response()] *)
  Definition blank : resp :=
    {| p_wave := None; p_resp := None; p_interp := None; p_leff := None; p_solar := None;
       p_vega2ab := None; p_fwhm := None |}.

  (** self.interp(x) of a response: 1-D ordinates. *)
  Definition reval (it : interp1 T) (t : T) : T := ieval1 cub (ix it) (hd [] (iys it)) t.

  Definition geb (a b : T) : bool := b <=? a.

  (** np.where(mask)[0] *)
  Definition where_ (mask : list bool) : list nat :=
    filter (fun i => nth i mask false) (seq 0 (length mask)).

  (** response.py:364-376: SED samples inside the band, plus the neighbour on each side. *)
  Definition in_band (rw sw : list T) : list bool :=
    map (fun w => geb w (nth 0 rw n0) && (w <=? last rw n0)) sw.
  Definition widen (mask : list bool) : list bool :=
    let ik := where_ mask in
    let a := hd 0%nat ik in
    let b := last ik 0%nat in
    let m1 := if Nat.ltb 0 a then upd (a - 1) true mask else mask in
    if Nat.ltb b (length mask - 1) then upd (b + 1) true m1 else m1.
  Definition grid_of (rw sw : list T) : list T :=
    unique (gather (widen (in_band rw sw)) sw ++ rw).

  (** response.py:384-402: the integrand times grid, and the trapezoid call with the grid as first
      argument and the integrand as second. *)
  Definition integrand (s r g : list T) : list T := zip nmul (zip nmul s r) g.
  Definition swapped (g f : list T) : T := trapz g f.

  (** response.py:363-411, the part of [project] after the inputs have been sorted out.  [sint] is the
      spectrum's interpolator and [rint] that of the response, None if there is none (calling None:
      TypeError).  With one SED the
      numerator stays in double precision, otherwise it is stored in a float32 array. *)
  Definition project_core (rw : list T) (rint : option (interp1 T)) (sw : list T) (sint : option (interp1 T))
             (nsed : nat) : res (nd T) :=
    match where_ (in_band rw sw) with
    | [] => Ok (scal n0)
    | _ =>
      let g := grid_of rw sw in
      match sint, rint with
      | None, _ | _, None => Raise TypeError
      | Some it, Some rint =>
        let ss := ieval cub it g in
        let rr := map (reval rint) g in
        let den := swapped g (integrand (sed_ab g) rr g) in
        if Nat.eqb nsed 1
        then Ok (scal (swapped g (integrand (hd [] ss) rr g) / den))
        else Ok (mk [nsed] (map (fun s => cst (swapped g (integrand s rr g)) / den) ss))
      end
    end.

  (** response.py:346-361: [project(wave=, flux=)].  np.float32(wave), np.float32(flux) cast the
      inputs.  A 0-d flux fails at flux.shape[-1].  A blank response fails at self.wave[0] (l.364). *)
  Definition project_arr (r : resp) (wave flux : nd T) : res (nd T) :=
    let wave := map1 cst wave in
    let flux := map1 cst flux in
    check Nat.eqb (ndim wave) 1 else ValueError;
    check negb (Nat.eqb (ndim flux) 0) else IndexError;
    check Nat.eqb (lastd (shp flux)) (hd 0%nat (shp wave)) else ValueError;
    check Nat.leb (ndim flux) 2 else ValueError;
    let nsed := if Nat.eqb (ndim flux) 1 then 1%nat else hd 0%nat (shp flux) in
    do it <- mk_cubic (dat wave) flux;
    match p_wave r with
    | Some rw => project_core rw (p_interp r) (dat wave) (Some it) nsed
    | None => Raise TypeError
    end.

  (** [project(sed=)] *)
  Definition project_sed (r : resp) (s : sed T) : res (nd T) :=
    match p_wave r with
    | Some rw => project_core rw (p_interp r) (s_wave s) (s_interp s) (s_nsed s)
    | None => Raise TypeError
    end.

  (** response.py:413-436 [set_lambda_eff] *)
  Definition lambda_eff (wave response : list T) : T :=
    let num := zip ndiv (zip nmul (map nln wave) response) wave in
    let den := zip ndiv response wave in
    nexp (swapped wave num / swapped wave den).

  (** response.py:438-481 [set_fwhm_limits] *)
  Definition nmax (l : list T) : T := fold_left (fun m x => if m <? x then x else m) (tl l) (hd n0 l).
  Definition half : T := nlit (1 # 2).
  Definition fwhm_limits (wave : list T) (it : interp1 T) : res (T * T * T) :=
    let ir0 := map (reval it) wave in
    check negb (Nat.eqb (length wave) 0) else ValueError;
    let mx := nmax ir0 in
    let ir := map (fun v => v / mx) ir0 in
    let f := fun x => reval it x / mx - half in
    match where_ (map (fun v => half <? v) ir) with
    | [] => Raise IndexError
    | iupper :: _ =>
      do low <- (if Nat.eqb iupper 0 then Ok (nth 0 wave n0)
                 else bq f (nth (iupper - 1) wave n0) (nth iupper wave n0));
      match where_ (map (fun v => half <=? v) ir) with
      | [] => Raise IndexError
      | l =>
        let ilower := last l 0%nat in
        do high <- (if Nat.eqb ilower (length ir - 1) then Ok (last wave n0)
                    else bq f (nth ilower wave n0) (nth (ilower + 1) wave n0));
        Ok (low, high, high - low)
      end
    end.

  (** response.py:496-508 / 533-545: the solar and Vega spectra from the content of a Basel file
      (utils.read_basel: wavelengths and one flux array per model).  The loop body assigns a
      [nunits, nwave] array to the row flux[unit, :] and then rescales the whole array.  Float32
      rounding: [cst] at the row store and after the rescaling. *)
  Definition basel_wave (wave : list T) : list T := map (fun w => cst (w * nlit 10)) wave.
  Definition basel_step (scale : T) (wave : list T) (flux : nd T) (unit_ : nat) : res (nd T) :=
    do num <- (let x := map1 (fun f => npi * nlit 4 * f * nlit (299792 * 10000000000000)) flux in
               bin ndiv n0 n0 x (vec (map nsq wave)));
    do r <- bto n0 (tl (shp flux)) num;
    let rows := upd unit_ (map cst r) (lrows flux) in
    Ok (map1 (fun f => cst (f * scale)) (mk (shp flux) (concat rows))).
  Definition basel_sed (scale : T) (file : list T * list (basel_unit T)) : res (sed T) :=
    let wave := basel_wave (fst file) in
    let flux := mk [length (snd file); length (fst file)] (concat (map (b_flux T) (snd file))) in
    do flux' <- foldM (basel_step scale wave) (seq 0 (length (snd file))) flux;
    SED wave flux' true.
  Definition pctocm : T := nlit (3086 * 1000000000000000).
  Definition sun_scale : T := nsq (nlit (69600000000) / (nlit 10 * pctocm)).
  Definition vega_scale : T := nsq (nlit (191144000000) / (nlit (768 # 100) * pctocm)).

  (** `if(maggies > 0): - 2.5 log10(maggies) else None` (response.py:512-515, 548-551); the truth value
      of an array with two or more elements raises ValueError, an empty one is false. *)
  Definition mag_or_none (m : nd T) : res (option T) :=
    match dat m with
    | [x] => Ok (if n0 <? x then Some (nopp (nlit (5 # 2)) * nlog10 x) else None)
    | [] => Ok None
    | _ => Raise ValueError
    end.

  (** response.py:483-517 [set_solar_magnitude], 519-552 [set_vega2ab]: [file] is what read_basel
      returns for the Basel file.  The spectrum is rebuilt by each new Response object. *)
  Definition ref_magnitude (scale : T) (file : res (list T * list (basel_unit T))) (r : resp)
    : res (option T) :=
    do f <- file; do s <- basel_sed scale f; do m <- project_sed r s; mag_or_none m.

  Variable sun vega : res (list T * list (basel_unit T)).

  (** response.py:215-222 [_setup], 230-239 [set_interp]: the steps in order; an exception leaves the later attributes unset.
      Result: the object and the exception. *)
  Definition resp_setup (r : resp) : resp * option exn :=
    match p_wave r, p_resp r with
    | Some w, Some y =>
      match mk_cubic w (vec y) with
      | Raise e => (r, Some e)
      | Ok it =>
        let r1 := {| p_wave := p_wave r; p_resp := p_resp r; p_interp := Some it; p_leff := p_leff r;
                     p_solar := p_solar r; p_vega2ab := p_vega2ab r; p_fwhm := p_fwhm r |} in
        let r2 := {| p_wave := p_wave r; p_resp := p_resp r; p_interp := Some it;
                     p_leff := Some (lambda_eff w y);
                     p_solar := p_solar r; p_vega2ab := p_vega2ab r; p_fwhm := p_fwhm r |} in
        match ref_magnitude sun_scale sun r2 with
        | Raise e => (r2, Some e)
        | Ok sm =>
          let r3 := {| p_wave := p_wave r; p_resp := p_resp r; p_interp := Some it;
                       p_leff := p_leff r2; p_solar := sm; p_vega2ab := p_vega2ab r; p_fwhm := p_fwhm r |} in
          match ref_magnitude vega_scale vega r3 with
          | Raise e => (r3, Some e)
          | Ok vm =>
            let r4 := {| p_wave := p_wave r; p_resp := p_resp r; p_interp := Some it;
                         p_leff := p_leff r2; p_solar := sm; p_vega2ab := vm; p_fwhm := p_fwhm r |} in
            match fwhm_limits w it with
            | Raise e => (r4, Some e)
            | Ok fw => ({| p_wave := p_wave r; p_resp := p_resp r; p_interp := Some it;
                           p_leff := p_leff r2; p_solar := sm; p_vega2ab := vm; p_fwhm := Some fw |}, None)
            end
          end
        end
      end
    | _, _ => (r, Some TypeError)
    end.

  (** response.py:188-194: wave[isort], response[isort].  A response array shorter than wave fails to
      index; a longer one is cut. *)
  Definition sort_pair (wave response : list T) : res (list T * list T) :=
    let p := argsort wave in
    check forallb (fun k => Nat.ltb k (length response)) p else IndexError;
    Ok (map (fun k => nth k wave n0) p, map (fun k => nth k response n0) p).

  Definition with_curve (r : resp) (w y : list T) : resp :=
    {| p_wave := Some w; p_resp := Some y; p_interp := p_interp r; p_leff := p_leff r; p_solar := p_solar r;
       p_vega2ab := p_vega2ab r; p_fwhm := p_fwhm r |}.

  (** response.py:188-213 [Response(wave=, response=)]. *)
  Definition Response (wave response : list T) : res resp :=
    do wr <- sort_pair wave response;
    match resp_setup (with_curve blank (fst wr) (snd wr)) with
    | (r, None) => Ok r
    | (_, Some e) => Raise e
    end.

  (** response.py:262-291 [fromdat] of an existing object.  [table] is the parsed file: the columns
      'lambda' and 'pass'; None when the file does not exist (ValueError), Raise e when
      astropy.io.ascii fails to parse it or there is no column 'lambda'.  A table with the column 'lambda' but not 'pass',
      of which the code stores the wavelengths before it raises, is modelled by [fromdat_table] of RespCols.v. *)
  Definition fromdat (r : resp) (table : option (res (list T * list T))) : resp * option exn :=
    match table with
    | None => (r, Some ValueError)
    | Some (Raise e) => (r, Some e)
    | Some (Ok wy) =>
      match sort_pair (fst wy) (snd wy) with
      | Raise e => (r, Some e)
      | Ok wr => resp_setup (with_curve r (fst wr) (snd wr))
      end
    end.
End Response.
Arguments resp : clear implicits.
