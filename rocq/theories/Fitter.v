(** Model of fitter.py, with the to_ab methods of its subclasses in kcorrect.py. *)
From Coq Require Import String List Arith Bool ZArith QArith.
From Verif Require Import Base Num Interp Utils Sed Response RespDict.
Import ListNotations.
Local Open Scope num_scope.
Local Open Scope nat_scope.

(** Which class's to_ab is called. *)
Inductive abkind := Plain | SDSS | GST.

Section Fitter.
  Context {T : Type} {N : Num T}.

  Definition nnat (k : nat) : T := nlit (Z.of_nat k # 1).

  (** * scipy.interpolate.interp1d(x, y, axis=0), kind 'linear', bounds_error True (fitter.py:76-78)

      The constructor sorts by x.  [a_rows] has one flattened table per grid point, [a_shape] is the shape
      of one table. *)
  Record atab := { a_x : list T; a_rows : list (list T); a_shape : list nat }.

  Definition mk_linear (x : list T) (y : nd T) : res atab :=
    match shp y with
    | [] => Raise ValueError
    | n :: s =>
      check Nat.eqb n (length x) else ValueError;
      check negb (Nat.eqb n 0) else ValueError;
      let p := argsort x in
      let rows := chunks n (size s) (dat y) in
      Ok {| a_x := map (fun k => nth k x n0) p; a_rows := map (fun k => nth k rows []) p; a_shape := s |}
    end.

  (** np.searchsorted(x, t), side 'left', for sorted x. *)
  Fixpoint search (x : list T) (t : T) : nat :=
    match x with [] => 0 | a :: r => if nltb a t then S (search r t) else 0 end.

  (** interp1d._call_linear for one abscissa: the index is clipped to [1, len-1]. *)
  Definition arow (A : atab) (t : T) : list T :=
    let hi := Nat.min (Nat.max 1 (search (a_x A) t)) (length (a_x A) - 1) in
    let lo := hi - 1 in
    let xlo := nth lo (a_x A) n0 in
    let xhi := nth hi (a_x A) n0 in
    zip (fun ylo yhi => ((yhi - ylo) / (xhi - xlo) * (t - xlo) + ylo)%num)
        (nth lo (a_rows A) []) (nth hi (a_rows A) []).

  (** interp1d.__call__: ValueError if any abscissa is out of range (a NaN is not). *)
  Definition acall (A : atab) (t : nd T) : res (nd T) :=
    check negb (existsb (out_of (a_x A)) (dat t)) else ValueError;
    Ok (mk (shp t ++ a_shape A) (concat (map (arow A) (dat t)))).

  (** * to_ab (fitter.py:115-147, kcorrect.py:911-957, 1105-1157) *)

  (** The columns a[..., 2:7] that exist. *)
  Definition sdss_cols (d : nat) : list nat := filter (fun k => Nat.ltb k d) [2; 3; 4; 5; 6].

  (** maggies[..., 2:7] = v, v of the shape of the slice. *)
  Definition set_cols (a v : nd T) : res (nd T) :=
    foldM (fun a jk => do c <- get_last (fst jk) n0 v; set_last (snd jk) n0 c a)
          (combine (seq 0 5) (sdss_cols (lastd (shp a)))) a.

  (** kcorrect.py:1105-1157.  Without ivar, ivar[..., 2:7] subscripts None. *)
  Definition gst_to_ab (maggies : nd T) (ivar : option (nd T)) : res (nd T * option (nd T)) :=
    do sm <- take_last (sdss_cols (lastd (shp maggies))) n0 maggies;
    match ivar with
    | None => Raise TypeError
    | Some iv =>
      do si <- take_last (sdss_cols (lastd (shp iv))) n0 iv;
      do r <- sdss_ab_correct sm (Some si) default_abfix;
      do m' <- set_cols maggies (fst r);
      match snd r with
      | None => Raise TypeError
      | Some iv' => do iv'' <- set_cols iv iv'; Ok (m', Some iv'')
      end
    end.

  Definition to_ab (k : abkind) (maggies : nd T) (ivar : option (nd T)) : res (nd T * option (nd T)) :=
    match k with
    | Plain => Ok (maggies, ivar)
    | SDSS => sdss_ab_correct maggies ivar default_abfix
    | GST => gst_to_ab maggies ivar
    end.

  (** * The object (fitter.py:62-74)

      [f_resp] is a list of names (None is not modelled); [f_A] is the attribute Amatrix, None until
      set_Amatrix has been called. *)
  Record fitter := {
    f_kind : abkind; f_abc : bool; f_resp : list string; f_sed : sed T; f_zs : list T; f_A : option atab }.

  Definition f_nsed (F : fitter) : nat := s_nsed (f_sed F).

  (** fitter.py:69-73, the redshift grid. *)
  Definition redshift_grid (r0 r1 : T) (n : nat) : list T :=
    map (fun k => (cst r0 + (cst r1 - cst r0) * nnat k / nlit ((Z.of_nat n - 1) # 1))%num) (seq 0 n).

  (** * fitter.py:234-352 [_process_inputs] *)
  Record pin := { q_array : bool; q_n : nat; q_z : nd T; q_m : option (nd T); q_iv : option (nd T);
                  q_c : option (nd T) }.

  Definition shape_ok (array : bool) (n w : nat) (s : list nat) : bool :=
    if array then match s with [a; b] => Nat.eqb a n && Nat.eqb b w | _ => false end
    else match s with [b] => Nat.eqb b w | _ => false end.
  Definition opt_shape_ok (array : bool) (n w : nat) (o : option (nd T)) : bool :=
    match o with Some a => shape_ok array n w (shp a) | None => true end.

  Definition process_inputs (F : fitter) (redshift maggies ivar coeffs : option (nd T)) : res pin :=
    match redshift with
    | None => Raise ValueError
    | Some z =>
      let z := map1 cst z in
      check Nat.leb (ndim z) 1 else TypeError;
      let array := Nat.eqb (ndim z) 1 in
      let n := if array then size (shp z) else 1 in
      let nb := length (f_resp F) in
      let maggies := option_map (map1 cst) maggies in
      check opt_shape_ok array n nb maggies else ValueError;
      let ivar := option_map (map1 cst) ivar in
      check opt_shape_ok array n nb ivar else ValueError;
      let coeffs := option_map (map1 cst) coeffs in
      check opt_shape_ok array n (f_nsed F) coeffs else ValueError;
      match f_abc F, maggies with
      | true, Some m =>
        do r <- to_ab (f_kind F) m ivar;
        Ok {| q_array := array; q_n := n; q_z := z; q_m := Some (fst r);
              q_iv := match ivar with Some _ => snd r | None => None end; q_c := coeffs |}
      | _, _ => Ok {| q_array := array; q_n := n; q_z := z; q_m := maggies; q_iv := ivar; q_c := coeffs |}
      end
    end.

  (** * scipy.optimize.nnls

      Oracle: [nnls maxiter ncol rows b] is the solution, None when the iteration limit is reached
      (RuntimeError); maxiter None is the default limit.  np.asarray_chkfinite and the dimension checks
      are modelled here; they raise ValueError (for a 0-d b, recent SciPy versions raise IndexError). *)
  Variable nnls : option nat -> nat -> list (list T) -> list T -> option (list T).

  Definition nnls_call (maxiter : option nat) (A b : nd T) : res (nd T) :=
    check forallb nfin (dat A) else ValueError;
    check forallb nfin (dat b) else ValueError;
    check Nat.eqb (ndim A) 2 else ValueError;
    check Nat.eqb (ndim b) 1 else ValueError;
    check Nat.eqb (hd 0 (shp A)) (hd 0 (shp b)) else ValueError;
    match nnls maxiter (lastd (shp A)) (lrows A) (dat b) with
    | Some x => Ok (vec x)
    | None => Raise RuntimeError
    end.

  (** fitter.py:205-209, 222-226 *)
  Definition nnls_retry (A b : nd T) : res (nd T) :=
    catch (nnls_call None A b) RuntimeError (nnls_call (Some (lastd (shp A) * 100)) A b).

  (** * fitter.py:155-232 [_fit_coeffs] *)

  (** np.transpose(np.tile(inverr, (nsed, 1))) for a 0-d or 1-D inverr (fitter.py:191). *)
  Definition inverr_matrix (nsed : nat) (inverr : nd T) : nd T :=
    mk [length (dat inverr); nsed] (concat (map (fun e => repeat e nsed) (dat inverr))).

  (** The array of shape [m, length cols] with the given columns. *)
  Definition of_cols (m : nat) (cols : list (list T)) : nd T :=
    mk [m; length cols] (concat (map (fun k => map (fun c => nth k c n0) cols) (seq 0 m))).

  (** The random stream of np.random.normal; [cur] variates have been drawn before. *)
  Variable rng : nat -> T.

  (** fitter.py:219-221: one Monte Carlo draw. *)
  Definition draw (maggies inverr : list T) (cur : nat) : list T * nat :=
    let mask := map (fun e => nltb n0 e) inverr in
    let ng := length (gather mask inverr) in
    let err := map (fun e => ndiv n1 e) (gather mask inverr) in
    let base := map cst maggies in
    let noise := zip nmul (map rng (seq cur ng)) err in
    (scatter mask base (zip (fun m e => cst (nadd m e)) (gather mask base) noise), cur + ng).

  (** fitter.py:218-228, [mc] rounds; the results are the columns of maggies_mc and coeffs_mc. *)
  Fixpoint mc_loop (nsed : nat) (A : nd T) (maggies inverr : list T) (mc cur : nat)
    : res (list (list T) * list (list T) * nat) :=
    match mc with
    | 0 => Ok ([], [], cur)
    | S mc' =>
      let (m, cur1) := draw maggies inverr cur in
      do c <- nnls_retry A (vec (zip nmul m inverr));
      do c' <- bto n0 [nsed] (map1 cst c);
      do r <- mc_loop nsed A maggies inverr mc' cur1;
      let '(ms, cs, cur2) := r in Ok (m :: ms, c' :: cs, cur2)
    end.

  (** What _fit_coeffs / fit_coeffs return: coeffs, (coeffs, coeffs_mc) or (coeffs, coeffs_mc, maggies_mc). *)
  Inductive fc_out := Bare (c : nd T) | Two (c cmc : nd T) | Three (c cmc mmc : nd T).

  (** mc is a natural number; the result also has the new position of the random stream. *)
  Definition fit1 (F : fitter) (z : nd T) (maggies ivar : option (nd T)) (mc cur : nat) : res (fc_out * nat) :=
    let nsed := f_nsed F in
    let zeros := full [nsed] n0 in
    match ivar with
    | None => Raise TypeError
    | Some ivar =>
      let inverr := map1 nsqrt ivar in
      match (match f_A F with
             | None => Raise TypeError
             | Some A => do M <- acall A z; bin nmul n0 n0 (inverr_matrix nsed inverr) M
             end) with
      | Raise ValueError => Ok (if Nat.eqb mc 0 then Bare zeros else Two zeros (full [nsed; mc] n0), cur)
      | Raise e => Raise e
      | Ok A =>
        match maggies with
        | None => Raise TypeError
        | Some maggies =>
          do b <- bin nmul n0 n0 maggies inverr;
          do c <- nnls_retry A b;
          if Nat.eqb mc 0 then Ok (Bare c, cur)
          else do r <- mc_loop nsed A (dat maggies) (dat inverr) mc cur;
               let '(ms, cs, cur') := r in
               Ok (Three c (of_cols nsed cs) (of_cols (length (dat maggies)) ms), cur')
        end
      end
    end.

  (** * fitter.py:354-454 [fit_coeffs] *)

  (** fitter.py:438-449, one object of a batch: what is stored in row i of the outputs. *)
  Definition fit_row (F : fitter) (maggies ivar : option (nd T)) (mc cur i : nat) (z : T)
    : res (list T * list T * list T * nat) :=
    let nsed := f_nsed F in
    match maggies, ivar with
    | Some m, Some iv =>
      do oc <- fit1 F (scal z) (Some (row i m)) (Some (row i iv)) mc cur;
      let (o, cur') := oc in
      if Nat.eqb mc 0
      then match o with
           | Bare c => do c' <- bto n0 [nsed] (map1 cst c); Ok (c', [], [], cur')
           | _ => Raise ValueError
           end
      else match o with
           | Three c cm mm =>
             do c' <- bto n0 [nsed] (map1 cst c);
             do cm' <- bto n0 [nsed; mc] cm;
             do mm' <- bto n0 [length (f_resp F); mc] mm;
             Ok (c', cm', mm', cur')
           | _ => Raise ValueError
           end
    | _, _ => Raise TypeError
    end.

  (** The loop over objects; every row of the outputs is written exactly once, in order. *)
  Fixpoint fit_rows (F : fitter) (maggies ivar : option (nd T)) (mc cur i : nat) (zs : list T)
    : res (list (list T) * list (list T) * list (list T) * nat) :=
    match zs with
    | [] => Ok ([], [], [], cur)
    | z :: r =>
      do a <- fit_row F maggies ivar mc cur i z;
      let '(c, cm, mm, cur1) := a in
      do b <- fit_rows F maggies ivar mc cur1 (S i) r;
      let '(cs, cms, mms, cur2) := b in
      Ok (c :: cs, cm :: cms, mm :: mms, cur2)
    end.

  (** fitter.py:411-454, what follows the processing of the inputs. *)
  Definition fit_after (F : fitter) (p : pin) (mc cur : nat) : res (fc_out * nat) :=
    let n := q_n p in
    let nsed := f_nsed F in
    if Nat.eqb n 1 then
      do oc <- fit1 F (squeeze (q_z p)) (option_map squeeze (q_m p)) (option_map squeeze (q_iv p)) mc cur;
      let (o, cur') := oc in
      if Nat.eqb mc 0 then
        match o with
        | Bare c =>
          if q_array p
          then do l <- len c; do c' <- reshape [1; l] c; Ok (Bare c', cur')
          else Ok (Bare c, cur')
        | _ => Raise ValueError
        end
      else
        match o with
        | Three c cm mm =>
          if q_array p
          then do l <- len c; do c' <- reshape [1; l] c;
               do l' <- len c'; do cm' <- reshape [1; l'; mc] cm;
               match q_m p with
               | None => Raise TypeError
               | Some m => do lm <- len m; do mm' <- reshape [1; lm; mc] mm;
                           Ok (Three c' cm' mm', cur')
               end
          else Ok (Three c cm mm, cur')
        | _ => Raise ValueError
        end
    else
      do r <- fit_rows F (q_m p) (q_iv p) mc cur 0 (dat (q_z p));
      let '(cs, cms, mms, cur') := r in
      let c := mk [n; nsed] (concat cs) in
      if Nat.eqb mc 0 then Ok (Bare c, cur')
      else Ok (Three c (mk [n; nsed; mc] (concat cms)) (mk [n; length (f_resp F); mc] (concat mms)), cur').

  (** fitter.py:402-409, then the above. *)
  Definition fit_coeffs (F : fitter) (redshift maggies ivar : option (nd T)) (mc cur : nat)
    : res (fc_out * nat) :=
    match redshift with
    | None => Raise TypeError
    | Some _ => do p <- process_inputs F redshift maggies ivar None; fit_after F p mc cur
    end.

  (** * fitter.py:456-543 [_reconstruct], [reconstruct]

      The sums of np.einsum and ndarray.dot are left folds; numpy may add in another order.  band_shift is
      a number. *)
  Definition dotp (a c : list T) : T := nsum (zip nmul a c).

  Definition reconstruct_ (F : fitter) (A : option atab) (redshift coeffs : option (nd T)) (bs : T) : res (nd T) :=
    do p <- process_inputs F redshift None None coeffs;
    let shift := map1 (fun z => ((n1 + z) * (n1 + bs) - n1)%num) (q_z p) in
    do M <- (match A with None => Raise TypeError | Some A => acall A shift end);
    let nt := lastd (shp M) in
    let nb := lastd (lead (shp M)) in
    do m <- (if q_array p
             then match q_c p with
                  | None => Raise AttributeError
                  | Some c =>
                    check Nat.eqb nt (f_nsed F) else ValueError;
                    Ok (mk [q_n p; nb]
                           (concat (zip (fun Mi ci => map (fun a => dotp a ci) (chunks nb nt Mi))
                                        (chunks (q_n p) (nb * nt) (dat M)) (lrows c))))
                  end
             else match q_c p with
                  | None => Raise TypeError
                  | Some c =>
                    check Nat.eqb nt (f_nsed F) else ValueError;
                    Ok (mk [nb] (map (fun a => dotp a (dat c)) (chunks nb nt (dat M))))
                  end);
    Ok (map1 (fun x => (x / (n1 + bs))%num) m).

  Definition reconstruct (F : fitter) (redshift coeffs : option (nd T)) (bs : T) : res (nd T) :=
    reconstruct_ F (f_A F) redshift coeffs bs.

  (** * fitter.py:80-113 [_calc_Amatrix] *)
  Variable cub : list T -> list T -> T -> T.
  Variable bq : (T -> T) -> T -> T -> res T.
  Variable sun vega : res (list T * list (basel_unit T)).

  (** fitter.py:84-85 *)
  Fixpoint load_all (fs : @fsys T) (names : list string) (d : dict (resp T)) : dict (resp T) * option exn :=
    match names with
    | [] => (d, None)
    | n :: r =>
      match load_response cub bq sun vega fs d n false with
      | (d', None) => load_all fs r d'
      | (d', Some e) => (d', Some e)
      end
    end.

  (** flux[s:e, :] *)
  Definition flux_rows (flux : nd T) (s e : nat) : nd T :=
    let w := size (tl (shp flux)) in
    mk ((e - s) :: tl (shp flux)) (firstn ((e - s) * w) (skipn (s * w) (dat flux))).

  (** row[s:e] = v *)
  Definition splice (s e : nat) (v r : list T) : list T := firstn s r ++ v ++ skipn e r.

  (** np.arange(0, nsed, nchunk) *)
  Definition chunk_starts (nchunk nsed : nat) : list nat :=
    map (fun k => k * nchunk) (seq 0 ((nsed + nchunk - 1) / nchunk)).

  (** fitter.py:98-106 *)
  Definition project_chunks (nchunk : nat) (r : resp T) (s : sed T) : res (list T) :=
    foldM (fun row i =>
             let e := Nat.min (i + nchunk) (s_nsed s) in
             do v <- project_arr cub r (vec (s_wave s)) (flux_rows (s_flux s) i e);
             do vs <- bto n0 [e - i] v;
             Ok (splice i e (map cst vs) row))
          (chunk_starts nchunk (s_nsed s)) (repeat n0 (s_nsed s)).

  (** fitter.py:93-106: rmatrix[iz, ir, :] *)
  Definition project_row (r : resp T) (s : sed T) : res (list T) :=
    if s_flag s
    then do v <- project_sed cub r s; rmap (map cst) (bto n0 [s_nsed s] v)
    else project_chunks 1000 r s.

  (** fitter.py:91-106: the loop over the grid, with the state of the templates. *)
  Definition project_bands (d : dict (resp T)) (names : list string) (s : sed T) : res (list (list T)) :=
    mapM (fun n => match dget d n with Some r => project_row r s | None => Raise KeyError end) names.
  Fixpoint z_loop (d : dict (resp T)) (names : list string) (zs : list T) (s : sed T)
    : sed T * res (list (list T)) :=
    match zs with
    | [] => (s, Ok [])
    | z :: r =>
      match set_redshift s z with
      | (s1, Some e) => (s1, Raise e)
      | (s1, None) =>
        match project_bands d names s1 with
        | Raise e => (s1, Raise e)
        | Ok rows => let (s2, t) := z_loop d names r s1 in (s2, do l <- t; Ok (concat rows :: l))
        end
      end
    end.

  (** [_calc_Amatrix]: new cache, new state of the templates, and the interpolator. *)
  Definition calc_A (fs : @fsys T) (names : list string) (zs : list T) (d : dict (resp T)) (s : sed T)
    : dict (resp T) * sed T * res atab :=
    match load_all fs names d with
    | (d', Some e) => (d', s, Raise e)
    | (d', None) =>
      match z_loop d' names zs s with
      | (s1, Raise e) => (d', s1, Raise e)
      | (s1, Ok tab) =>
        match mk_linear zs (mk [length zs; length names; s_nsed s] (concat tab)) with
        | Raise e => (d', s1, Raise e)
        | Ok A => match set_redshift s1 n0 with
                  | (s2, None) => (d', s2, Ok A)
                  | (s2, Some e) => (d', s2, Raise e)
                  end
        end
      end
    end.

  (** fitter.py:62-74 [Fitter(...)] *)
  Definition Fitter (k : abkind) (abc : bool) (responses : list string) (s : sed T) (r0 r1 : T) (nz : nat) : fitter :=
    {| f_kind := k; f_abc := abc; f_resp := responses; f_sed := s; f_zs := redshift_grid r0 r1 nz; f_A := None |}.

  (** fitter.py:149-153 [set_Amatrix] *)
  Definition set_Amatrix (fs : @fsys T) (d : dict (resp T)) (F : fitter) : dict (resp T) * fitter * option exn :=
    match calc_A fs (f_resp F) (f_zs F) d (f_sed F) with
    | (d', s', Ok A) => (d', {| f_kind := f_kind F; f_abc := f_abc F; f_resp := f_resp F; f_sed := s';
                                f_zs := f_zs F; f_A := Some A |}, None)
    | (d', s', Raise e) => (d', {| f_kind := f_kind F; f_abc := f_abc F; f_resp := f_resp F; f_sed := s';
                                   f_zs := f_zs F; f_A := f_A F |}, Some e)
    end.
End Fitter.
Arguments atab : clear implicits.
Arguments fitter : clear implicits.
Arguments fc_out : clear implicits.
Arguments pin : clear implicits.
