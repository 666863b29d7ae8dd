(** Model of SED.plot (template.py:247-292): what is passed to matplotlib, in order, up to an exception. *)
From Coq Require Import String List Arith Bool ZArith QArith.
From Verif Require Import Base Num Sed.
Import ListNotations.
Local Open Scope num_scope.

(** plt.plot(xs, ys, ...), plt.xlim, plt.ylim, and the two axis labels.  Simplifications: line style and the text of
    the labels are left out, and so is what matplotlib draws. *)
Inductive draw (T : Type) := Curve (xs ys : list T) | XLim (a b : T) | YLim (a b : T) | Labels.
Arguments Curve {T}. Arguments XLim {T}. Arguments YLim {T}. Arguments Labels {T}.

(** The argument [indx]: None, an integer, or a list or 1-D array of integers (within int32; arrays of more axes and
    non-integers are left out). *)
Inductive indx := AllSeds | One (i : Z) | Many (l : list Z).

Section Plot.
  Context {T : Type} {N : Num T}.

  (** template.py:264-269, [indxs] *)
  Definition plot_indices (s : sed T) (i : indx) : list Z :=
    match i with
    | AllSeds => map Z.of_nat (seq 0 (s_nsed s))
    | One i => [i]
    | Many l => l
    end.

  (** self.flux[i, :] (template.py:272); negative indices count from the end. *)
  Definition flux_row (s : sed T) (i : Z) : res (list T) :=
    check Nat.eqb (ndim (s_flux s)) 2 else IndexError;
    let n := Z.of_nat (hd 0%nat (shp (s_flux s))) in
    let k := if (i <? 0)%Z then (i + n)%Z else i in
    check (0 <=? k)%Z && (k <? n)%Z else IndexError;
    Ok (nth (Z.to_nat k) (lrows (s_flux s)) []).

  (** template.py:272-275, one pass of the loop; self.wave[ok] raises IndexError when the lengths differ. *)
  Definition plot_curve (s : sed T) (i : Z) : res (draw T) :=
    do r <- flux_row s i;
    let ok := map (fun f => n0 <? f) r in
    check Nat.eqb (length r) (length (s_wave s)) else IndexError;
    Ok (Curve (map nlog10 (gather ok (s_wave s)))
              (map nlog10 (zip nmul (gather ok (s_wave s)) (gather ok r)))).

  (** template.py:271-275: the curves drawn before the loop ends or raises. *)
  Fixpoint plot_curves (s : sed T) (l : list Z) : list (draw T) * option exn :=
    match l with
    | [] => ([], None)
    | i :: l => match plot_curve s i with
                | Raise e => ([], Some e)
                | Ok c => let (d, e) := plot_curves s l in (c :: d, e)
                end
    end.

  (** yvals.min() and yvals.max(); ValueError on an empty array. *)
  Definition amin (l : list T) : res T :=
    match l with [] => Raise ValueError | x :: l => Ok (fold_left (fun a b => if b <? a then b else a) l x) end.
  Definition amax (l : list T) : res T :=
    match l with [] => Raise ValueError | x :: l => Ok (fold_left (fun a b => if a <? b then b else a) l x) end.

  (** template.py:278-288.  matplotlib raises ValueError for limits that are not finite and for other than two limits.
      Simplification: without any curve (an empty [indx]) the fluxes are not looked at; yvals is then empty whatever they
      are. *)
  Definition plot_limits (s : sed T) (l : list Z) (lim : list T) : list (draw T) * option exn :=
    match lim with
    | a :: b :: more =>
        let x0 := nlog10 (cst a) in
        let x1 := nlog10 (cst b) in
        if negb (Nat.eqb (length more) 0 && nfin x0 && nfin x1) then ([], Some ValueError)
        else
          let inside := map (fun w => (a <? w) && (w <? b)) (s_wave s) in
          match
            (do rows <- mapM (flux_row s) l;
             let yvals := filter (fun y => n0 <? y)
                            (concat (map (fun r => gather inside (zip nmul r (map (nmul n1) (s_wave s)))) rows)) in
             do lo <- amin yvals;
             do hi <- amax yvals;
             let y0 := nlog10 lo - nlit (1 # 10) in
             let y1 := nlog10 hi + nlit (1 # 10) in
             check nfin y0 && nfin y1 else ValueError;
             Ok (YLim y0 y1))
          with
          | Raise e => ([XLim x0 x1], Some e)
          | Ok d => ([XLim x0 x1; d], None)
          end
    | _ => ([], Some IndexError)
    end.

  (** template.py:247-292 [plot] *)
  Definition plot (s : sed T) (i : indx) (wavelim : option (list T)) : list (draw T) * option exn :=
    let l := plot_indices s i in
    match plot_curves s l with
    | (d, Some e) => (d, Some e)
    | (d, None) =>
        match (match wavelim with None => ([], None) | Some lim => plot_limits s l lim end) with
        | (d', Some e) => (d ++ d', Some e)
        | (d', None) => (d ++ d' ++ [Labels], None)
        end
    end.
End Plot.
