(** Model of the Kcorrect class of kcorrect.py. *)
From Coq Require Import String List Arith Bool ZArith QArith.
From Verif Require Import Base Num Interp Utils Sed Response RespDict Fitter.
Import ListNotations.
Local Open Scope num_scope.
Local Open Scope nat_scope.

Section Kcorrect.
  Context {T : Type} {N : Num T}.

  (** template.py:387-402: the arrays of a Template, each of shape [nsed]. *)
  Record tmpl := { t_intsfh : list T; t_mremain : list T; t_mets : list T; t_m50 : list T; t_m300 : list T;
                   t_m1000 : list T }.

  (** kcorrect.py:129-185, attributes of a Kcorrect object.  [k_fit] has the attributes inherited from Fitter
      (responses, templates as an SED, redshifts, abcorrect, Amatrix), [k_rr] is redshift_range.  The cosmology is
      the argument [distmod] of the methods. *)
  Record kcor := {
    k_fit : fitter T; k_tmpl : tmpl; k_out : list string; k_map : list string; k_Aout : option (atab T);
    k_imap : list nat; k_rr : T * T }.

  (** list.index: the first occurrence. *)
  Fixpoint index_of (l : list string) (x : string) : option nat :=
    match l with [] => None | a :: r => if String.eqb a x then Some 0 else option_map S (index_of r x) end.

  (** kcorrect.py:169-176 *)
  Definition make_imap (responses map_ : list string) : res (list nat) :=
    mapM (fun r => match index_of responses r with Some i => Ok i | None => Raise ValueError end) map_.

  Fixpoint names_eqb (a b : list string) : bool :=
    match a, b with
    | [], [] => true
    | x :: a', y :: b' => String.eqb x y && names_eqb a' b'
    | _, _ => false
    end.

  Section Init.
    Variable cub : list T -> list T -> T -> T.
    Variable bq : (T -> T) -> T -> T -> res T.
    Variable sun vega : res (list T * list (basel_unit T)).

    (** kcorrect.py:129-185 [Kcorrect(responses=, templates=, ...)].  [out], [map_] are responses_out, responses_map,
        None for the default.  Result: the response cache, the state of the template object, and the new
        object.  [templates] is given (reading the default template file is [Template] of Persist.v). *)
    Definition Kcorrect (fs : @fsys T) (d : dict (resp T)) (k : abkind) (abc : bool) (responses : list string)
               (s : sed T) (t : tmpl) (out map_ : option (list string)) (r0 r1 : T) (nz : nat)
      : dict (resp T) * sed T * res kcor :=
      match set_Amatrix cub bq sun vega fs d (Fitter k abc responses s r0 r1 nz) with
      | (d1, F1, Some e) => (d1, f_sed F1, Raise e)
      | (d1, F1, None) =>
        let out := match out with Some l => l | None => responses end in
        let map_ := match map_ with Some l => l | None => responses end in
        if negb (Nat.eqb (length map_) (length out)) then (d1, f_sed F1, Raise ValueError)
        else
          let '(d2, s2, A) :=
            if names_eqb out responses
            then (d1, f_sed F1, match f_A F1 with Some A => Ok A | None => Raise TypeError end)
            else calc_A cub bq sun vega fs out (f_zs F1) d1 (f_sed F1) in
          (d2, s2,
           do A <- A;
           do im <- make_imap responses map_;
           Ok {| k_fit := {| f_kind := f_kind F1; f_abc := f_abc F1; f_resp := f_resp F1; f_sed := s2;
                             f_zs := f_zs F1; f_A := f_A F1 |};
                 k_tmpl := t; k_out := out; k_map := map_; k_Aout := Some A; k_imap := im;
                 k_rr := (cst r0, cst r1) |})
      end.
  End Init.

  (** * The subclasses *)
  Definition default {A} (x : A) (o : option A) : A := match o with Some a => a | None => x end.

  (** kcorrect.py:896-897 and 1089-1091, the default responses. *)
  Definition sdss_responses : list string := ["sdss_u0"; "sdss_g0"; "sdss_r0"; "sdss_i0"; "sdss_z0"]%string.
  Definition gst_responses : list string :=
    ["galex_FUV"; "galex_NUV"; "sdss_u0"; "sdss_g0"; "sdss_r0"; "sdss_i0"; "sdss_z0"; "twomass_J"; "twomass_H";
     "twomass_Ks"]%string.

  Section Classes.
    Variable cub : list T -> list T -> T -> T.
    Variable bq : (T -> T) -> T -> T -> res T.
    Variable sun vega : res (list T * list (basel_unit T)).

    (** kcorrect.py:896-909 [KcorrectSDSS(...)] and 1089-1103 [KcorrectGST(...)], with the arguments passed on to
        [Kcorrect]; None stands for an argument that is left out.  redshift_range is [0, 2] and nredshift 4000 by
        default. *)
    Definition KcorrectSDSS (fs : @fsys T) (d : dict (resp T)) (abc : option bool) (responses : option (list string))
               (s : sed T) (t : tmpl) (out map_ : option (list string)) (rr : option (T * T)) (nz : option nat)
      : dict (resp T) * sed T * res kcor :=
      let rr := default (nlit 0, nlit 2) rr in
      Kcorrect cub bq sun vega fs d SDSS (default true abc) (default sdss_responses responses) s t out map_
               (fst rr) (snd rr) (default 4000 nz).
    Definition KcorrectGST (fs : @fsys T) (d : dict (resp T)) (abc : option bool) (responses : option (list string))
               (s : sed T) (t : tmpl) (out map_ : option (list string)) (rr : option (T * T)) (nz : option nat)
      : dict (resp T) * sed T * res kcor :=
      let rr := default (nlit 0, nlit 2) rr in
      Kcorrect cub bq sun vega fs d GST (default false abc) (default gst_responses responses) s t out map_
               (fst rr) (snd rr) (default 4000 nz).
  End Classes.

  (** * kcorrect.py:394-416 [reconstruct_out] *)
  Definition reconstruct_out (K : kcor) (redshift coeffs : option (nd T)) (bs : T) : res (nd T) :=
    reconstruct_ (k_fit K) (k_Aout K) redshift coeffs bs.

  Definition m25 : T := nlit (-(5) # 2).

  (** a[..., imap] of a list. *)
  Definition pick (idx : list nat) (l : list T) : res (list T) :=
    check forallb (fun k => Nat.ltb k (length l)) idx else IndexError;
    Ok (map (fun k => nth k l n0) idx).

  (** One object of kcorrect.py:452-465: - 2.5 * log10(maggies_in[imap] / maggies_out). *)
  Definition kc_row (K : kcor) (mi mo : list T) : res (list T) :=
    do a <- pick (k_imap K) mi;
    check Nat.eqb (length a) (length mo) else Unmodelled;
    Ok (zip (fun x y => (m25 * nlog10 (x / y))%num) a mo).

  (** kcorrect.py:418-467 [kcorrect].  In an array the result is stored as float32, for a single object it is not.
      Objects in which the map and the output responses have different lengths (which the constructor excludes)
      are not modelled.  [redshift=0. * redshift] is NaN for an infinite or NaN redshift.  The fancy indexing of
      all selected rows at once is done row by row. *)
  Definition kcorrect (K : kcor) (redshift coeffs : option (nd T)) (bs : T) : res (nd T) :=
    let F := k_fit K in
    do p <- process_inputs F redshift None None coeffs;
    do mi <- reconstruct F (Some (q_z p)) (q_c p) n0;
    do mo <- reconstruct_out K (Some (map1 (fun z => (nlit 0 * z)%num) (q_z p))) (q_c p) bs;
    match q_c p with
    | None => Raise AttributeError
    | Some c =>
      if q_array p then
        do rows <- mapM (fun r : list T * (list T * list T) =>
            let '(ci, (a, b)) := r in
            if nltb n0 (nsum ci) then do k <- kc_row K a b; Ok (map cst k)
            else Ok (repeat n0 (length b)))
          (combine (lrows c) (combine (lrows mi) (lrows mo)));
        Ok (mk (shp mo) (concat rows))
      else
        if nltb n0 (nsum (dat c))
        then do k <- kc_row K (dat mi) (dat mo); Ok (mk (shp mo) k)
        else Ok (full (shp mo) n0)
    end.

  (** * kcorrect.py:469-619 [absmag] *)

  Definition sentinel : T := nlit (-(9999) # 1).
  Definition parsec10 : T := nlit (1 # 100000).

  (** The distance modulus and the factor relative to 10 pc (kcorrect.py:551-557; in [derived], 252-259).
      [distmod] is self.cosmo.distmod. *)
  Definition dfactor_of (d : T) : T := nsq (d / parsec10)%num.
  Definition dm_of_distance (d : T) : T := (nlit (5 # 2) * nlog10 (dfactor_of d))%num.

  Variable distmod : T -> T.

  (** kcorrect.py:565-582, one entry. *)
  Definition absmag1 (m iv dm k : T) : T :=
    let gd := nltb n0 m && nltb n0 iv in
    let bd := nleb m n0 || nleb iv n0 in
    let v := if gd then cst (cst (m25 * nlog10 m) - dm - k)%num else n0 in
    if bd then sentinel else v.
  (** kcorrect.py:584-596, one entry. *)
  Definition absrec1 (om dm k : T) : T :=
    let v := if nltb n0 om then cst (cst (m25 * nlog10 om) - dm - k)%num else (n0 + sentinel)%num in
    if nleb om n0 then sentinel else v.
  (** kcorrect.py:598-610, one entry. *)
  Definition abslim1 (iv dm k : T) : T :=
    let v := if nltb n0 iv then cst (cst (m25 * nlog10 (n1 / nsqrt iv)) - dm - k)%num else (n0 + sentinel)%num in
    if nleb iv n0 then sentinel else v.

  (** kcorrect.py:574-576: the distance modulus of each entry of the result: np.outer(dm, ones) in an array. *)
  Definition dm_entries (array : bool) (nout : nat) (dm : nd T) : list T :=
    if array then concat (map (fun d => repeat (d * n1)%num nout) (dat dm)) else repeat (hd n0 (dat dm)) nout.

  (** A bare array, or a tuple. *)
  Inductive am_out := Bare1 (a : nd T) | Tuple (l : list (nd T)).

  (** kcorrect.py:549-619, what follows the processing of the inputs. *)
  Definition absmag_after (K : kcor) (p : pin T) (bs : T) (distance : option (nd T))
             (reconstruct_ limit_ kcorrect_ : bool) : res am_out :=
    let F := k_fit K in
    do ad <- match distance with
             | Some d => do q <- process_inputs F (Some d) None None (q_c p);
                         Ok (q_array q, map1 dm_of_distance (q_z q))
             | None => Ok (q_array p, map1 distmod (q_z p))
             end;
    let (array, dm) := ad in
    do k <- kcorrect K (Some (q_z p)) (q_c p) bs;
    match q_m p with
    | None => Raise TypeError
    | Some m =>
      do um <- take_last (k_imap K) n0 m;
      match q_iv p with
      | None => Raise TypeError
      | Some iv =>
        do uiv <- take_last (k_imap K) n0 iv;
        check shape_eqb (shp um) (shp k) else Unmodelled;
        let dms := dm_entries array (length (k_out K)) dm in
        check Nat.eqb (length dms) (length (dat k)) else Unmodelled;
        let dk := combine dms (dat k) in
        let am := mk (shp um) (zip (fun (x : T * T) (y : T * T) => absmag1 (fst x) (snd x) (fst y) (snd y))
                                   (combine (dat um) (dat uiv)) dk) in
        do rec <- (if reconstruct_
                   then do om <- reconstruct_out K (Some (q_z p)) (q_c p) bs;
                        check shape_eqb (shp om) (shp k) else Unmodelled;
                        Ok [mk (shp om) (zip (fun x (y : T * T) => absrec1 x (fst y) (snd y)) (dat om) dk)]
                   else Ok []);
        let lim := if limit_
                   then [mk (shp um) (zip (fun x (y : T * T) => abslim1 x (fst y) (snd y)) (dat uiv) dk)]
                   else [] in
        let kc := if kcorrect_ then [k] else [] in
        match rec ++ lim ++ kc with
        | [] => Ok (Bare1 am)
        | l => Ok (Tuple (am :: l))
        end
      end
    end.

  Definition absmag (K : kcor) (maggies ivar redshift coeffs : option (nd T)) (bs : T) (distance : option (nd T))
             (reconstruct_ limit_ kcorrect_ : bool) : res am_out :=
    do p <- process_inputs (k_fit K) redshift maggies ivar coeffs;
    absmag_after K p bs distance reconstruct_ limit_ kcorrect_.

  (** * kcorrect.py:621-702 [absmag_mc]

      The stores into float32 arrays are [cst]. *)
  Definition store_at (i : nat) (v out : nd T) : res (nd T) := set_last i n0 (map1 cst v) out.

  Definition absmag_mc_step (K : kcor) (maggies_mc : nd T) (ivar redshift : option (nd T)) (coeffs_mc : nd T) (bs : T)
             (distance : option (nd T)) (rec kc : bool) (outs : list (nd T)) (i : nat) : res (list (nd T)) :=
    do m <- get_last i n0 maggies_mc;
    do c <- get_last i n0 coeffs_mc;
    do o <- absmag K (Some m) ivar redshift (Some c) bs distance rec false kc;
    let parts := match o with Bare1 a => [a] | Tuple l => l end in
    mapM (fun ov : nd T * nd T => store_at i (snd ov) (fst ov)) (combine outs parts).

  Definition absmag_mc (K : kcor) (maggies_mc : nd T) (ivar redshift : option (nd T)) (coeffs_mc : nd T) (bs : T)
             (distance : option (nd T)) (rec kc : bool) : res am_out :=
    match shp coeffs_mc with
    | [] => Raise IndexError
    | _ =>
      let n := 1 + (if rec then 1 else 0) + (if kc then 1 else 0) in
      do outs <- foldM (absmag_mc_step K maggies_mc ivar redshift coeffs_mc bs distance rec kc)
                       (seq 0 (lastd (shp coeffs_mc))) (repeat (full (shp maggies_mc) n0) n);
      match outs with
      | [a] => Ok (Bare1 a)
      | l => Ok (Tuple l)
      end
    end.

  (** * kcorrect.py:187-323 [derived] *)

  Definition outdict := list (string * nd T).

  (** coeffs.dot(v) * dfactor for each object. *)
  Definition weighted (cs : list (list T)) (v : list T) (df : list T) : list T :=
    zip (fun c f => (dotp c v * f)%num) cs df.
  Definition tmpl_ok (t : tmpl) (nsed : nat) : bool :=
    forallb (fun v => Nat.eqb (length v) nsed)
            [t_intsfh t; t_mremain t; t_mets t; t_m50 t; t_m300 t; t_m1000 t].

  (** kcorrect.py:269-291, metallicity, b50, b300, b1000 of one object: [st] is the float32 store of the array case. *)
  Definition ratio (st : T -> T) (mrem x y : T) : T := if nltb n0 mrem then st (x / y)%num else n0.

  (** kcorrect.py:301-303, the loop over the output responses.  [dm] is None when the local variable is unbound.
      None + dm is a TypeError, except for an empty array dm. *)
  Definition solar_step (d : dict (resp T)) (dm : option (list T)) (rm : nd T) (irn : nat * string) : res (nd T) :=
    let (ir, name) := irn in
    match dget d name with
    | None => Raise KeyError
    | Some r =>
      match dm with
      | None => Raise UnboundLocalError
      | Some dm =>
        match p_solar r, dm with
        | None, _ :: _ => Raise TypeError
        | sm, _ =>
          let sm := match sm with Some x => x | None => n0 end in
          do c <- get_last ir n0 rm;
          set_last ir n0 (mk (shp c) (zip (fun x d => (x / npow10 (nlit (-(2) # 5) * (sm + d)))%num) (dat c) dm)) rm
        end
      end
    end.

  (** kcorrect.py:305-312, one entry of mtol. *)
  Definition mtol1 (mrem rm : T) : T := if nltb n0 rm then cst (mrem / rm)%num else n0.

  (** The shape of the per-object results. *)
  Definition per_object (array : bool) (l : list T) : nd T :=
    if array then vec l else scal (hd n0 l).

  (** [d] is the content of ResponseDict().  Template arrays that do not have shape [nsed] raise ValueError in dot,
      or broadcast; only their absence of failure is modelled: other lengths are [Unmodelled]. *)
  Definition derived (d : dict (resp T)) (K : kcor) (redshift coeffs : option (nd T)) (bs : T)
             (distance : option (nd T)) : res outdict :=
    let F := k_fit K in
    do p <- process_inputs F redshift None None coeffs;
    do ad <- match distance with
             | Some d => do q <- process_inputs F (Some d) None None (q_c p);
                         Ok (q_array q, map dfactor_of (dat (q_z q)), None)
             | None => let dm := map distmod (dat (q_z p)) in
                       Ok (q_array p, map (fun x => npow10 (nlit (2 # 5) * x)%num) dm, Some dm)
             end;
    let '(array, df, dm) := ad in
    match q_c p with
    | None => Raise AttributeError
    | Some c =>
      let t := k_tmpl K in
      check tmpl_ok t (f_nsed F) else Unmodelled;
      let cs := lrows c in
      let intsfh := weighted cs (t_intsfh t) df in
      let mremain := weighted cs (t_mremain t) df in
      let metals := weighted cs (zip nmul (t_mremain t) (t_mets t)) df in
      let m50 := weighted cs (t_m50 t) df in
      let m300 := weighted cs (t_m300 t) df in
      let m1000 := weighted cs (t_m1000 t) df in
      let st := if array then cst else (fun x => x) in
      let ratios := fun num den => zip (fun mr (xy : T * T) => ratio st mr (fst xy) (snd xy)) mremain (combine num den) in
      do rm0 <- reconstruct_out K (Some (if array then full [length (dat (q_z p))] n0 else scal n0)) (Some c) bs;
      do rm <- foldM (solar_step d dm) (combine (seq 0 (length (k_out K))) (k_out K)) rm0;
      let nout := lastd (shp rm) in
      check negb array || Nat.eqb (length (f_resp F)) nout || Nat.eqb nout 0 else IndexError;
      let mt := zip (fun mr r => map (mtol1 (if array then (mr * n1)%num else mr)) r) mremain (lrows rm) in
      Ok [("mremain"%string, per_object array mremain);
          ("intsfh"%string, per_object array intsfh);
          ("mtol"%string, mk (shp rm) (concat mt));
          ("b50"%string, per_object array (ratios m50 intsfh));
          ("b300"%string, per_object array (ratios m300 intsfh));
          ("b1000"%string, per_object array (ratios m1000 intsfh));
          ("metallicity"%string, per_object array (ratios metals mremain))]
    end.

  (** * kcorrect.py:325-392 [derived_mc]; None when there are no draws. *)
  Definition derived_mc_step (d : dict (resp T)) (K : kcor) (redshift : option (nd T)) (coeffs_mc : nd T) (bs : T)
             (distance : option (nd T)) (mc : nat) (out : option outdict) (i : nat) : res (option outdict) :=
    do c <- get_last i n0 coeffs_mc;
    do o <- derived d K redshift (Some c) bs distance;
    let out := match out with
               | Some u => u
               | None => map (fun kv : string * nd T => (fst kv, full (shp (snd kv) ++ [mc]) n0)) o
               end in
    do u <- mapM (fun kv : string * nd T =>
                    match dget out (fst kv) with
                    | None => Raise KeyError
                    | Some a => do b <- store_at i (snd kv) a; Ok (fst kv, b)
                    end) o;
    Ok (Some u).

  Definition derived_mc (d : dict (resp T)) (K : kcor) (redshift : option (nd T)) (coeffs_mc : nd T) (bs : T)
             (distance : option (nd T)) : res (option outdict) :=
    match shp coeffs_mc with
    | [] => Raise IndexError
    | _ => let mc := lastd (shp coeffs_mc) in
           foldM (derived_mc_step d K redshift coeffs_mc bs distance mc) (seq 0 mc) None
    end.

  (** * kcorrect.py:959-1005 [KcorrectSDSS.fit_coeffs_asinh].  mag_err None: sdss_asinh_to_maggies returns a bare array,
      which is unpacked into two: TypeError or ValueError unless its first axis has length 2; not modelled. *)
  Variable nnls : option nat -> nat -> list (list T) -> list T -> option (list T).
  Variable rng : nat -> T.
  Definition fit_coeffs_asinh (F : fitter T) (redshift : option (nd T)) (mag : nd T) (mag_err extinction : option (nd T))
             (cur : nat) : res (fc_out T * nat) :=
    match redshift with
    | None => Raise TypeError
    | Some _ =>
      do r <- sdss_asinh_to_maggies mag mag_err extinction;
      match snd r with
      | None => Raise Unmodelled
      | Some iv => fit_coeffs nnls rng F redshift (Some (fst r)) (Some iv) 0 cur
      end
    end.
End Kcorrect.
Arguments kcor : clear implicits.
Arguments tmpl : clear implicits.
Arguments am_out : clear implicits.
Arguments outdict : clear implicits.
