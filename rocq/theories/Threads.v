(** Several Python threads that load responses and build design matrices: response.py:81-113, 188-291, 413-552,
    template.py:127-139, 226-245 and fitter.py:80-113 as programs of atomic steps on a shared memory.

    One step is one read or one store of an attribute of a shared object or of an entry of a shared dictionary, which is
    the finest interleaving that CPython's global lock allows for them; local computations happen together with the
    step before.  The files do not change.  Simplifications: the three stores of fwhm_low, fwhm_high and fwhm are one
    step, an attribute that is read more than once in an expression is read once, and the spectra of Sun and Vega that
    a Response keeps are recomputed from their (constant) files. *)
From Coq Require Import String List Arith Bool.
From Verif Require Import Base Num Interp Utils Sed Response RespDict Fitter.
Import ListNotations.

(** The result of a call that returns nothing. *)
Definition outcome (e : option exn) : res unit := match e with None => Ok tt | Some e => Raise e end.

Section Threads.
  Context {T : Type} {N : Num T}.

  (** Shared memory.  [m_inst]: ResponseDictSingleton._instances (response.py:82), the number of the dictionary, if it has been
      created; [m_dicts]: dictionaries, whose values are object numbers; [m_objs]: the Response objects, each with the name it
      was created for and the number of the thread that created it (the programs do not read these two);
      [m_seds]: the SED (Template) objects. *)
  Record obj := { o_name : string; o_by : nat; o_resp : resp T }.
  Record mem := { m_inst : option nat; m_dicts : list (dict nat); m_objs : list obj; m_seds : list (sed T) }.

  (** A thread: finished, or an atomic step and what it does next.  The step is told the number of the thread. *)
  Inductive prog (A : Type) : Type :=
  | Ret (a : A)
  | Act {B : Type} (f : nat -> mem -> mem * B) (k : B -> prog A).
  Arguments Ret {A} a.
  Arguments Act {A B} f k.

  (** Sequencing of code that may raise. *)
  Fixpoint pbind {A B} (p : prog (res A)) (g : A -> prog (res B)) : prog (res B) :=
    match p with
    | Ret (Ok a) => g a
    | Ret (Raise e) => Ret (Raise e)
    | Act f k => Act f (fun b => pbind (k b) g)
    end.
  Definition fin {A} (r : res A) : prog (res A) := Ret r.

  (** One step of thread [i]; a schedule is the list of the threads whose turn it is. *)
  Definition step1 {A} (i : nat) (m : mem) (p : prog A) : mem * prog A :=
    match p with
    | Ret a => (m, Ret a)
    | Act f k => let r := f i m in (fst r, k (snd r))
    end.
  Definition step {A} (c : mem * list (prog A)) (i : nat) : mem * list (prog A) :=
    match nth_error (snd c) i with
    | None => c
    | Some p => let r := step1 i (fst c) p in (fst r, upd i (snd r) (snd c))
    end.
  Definition run {A} (sched : list nat) (m : mem) (ps : list (prog A)) : mem * list (prog A) :=
    fold_left step sched (m, ps).
  Definition finished {A} (p : prog A) (a : A) : Prop := p = Ret a.

  (** A program run by itself. *)
  Fixpoint solo {A} (i : nat) (p : prog A) (m : mem) : mem * A :=
    match p with
    | Ret a => (m, a)
    | Act f k => let r := f i m in solo i (k (snd r)) (fst r)
    end.

  (** * Steps *)
  Definition no_obj : obj := {| o_name := ""; o_by := 0; o_resp := blank |}.
  Definition set_objs (m : mem) (l : list obj) : mem :=
    {| m_inst := m_inst m; m_dicts := m_dicts m; m_objs := l; m_seds := m_seds m |}.
  Definition set_dicts (m : mem) (l : list (dict nat)) : mem :=
    {| m_inst := m_inst m; m_dicts := l; m_objs := m_objs m; m_seds := m_seds m |}.
  Definition set_seds (m : mem) (l : list (sed T)) : mem :=
    {| m_inst := m_inst m; m_dicts := m_dicts m; m_objs := m_objs m; m_seds := l |}.

  Definition a_get {B} (f : mem -> B) (_ : nat) (m : mem) : mem * B := (m, f m).
  (** `cls._instances[cls] = super().__call__()` (response.py:86-87): a new, empty dictionary. *)
  Definition a_newdict (_ : nat) (m : mem) : mem * unit :=
    ({| m_inst := Some (length (m_dicts m)); m_dicts := m_dicts m ++ [[]]; m_objs := m_objs m; m_seds := m_seds m |}, tt).
  (** `self[response] = Response()` (response.py:111): the object is private until it is stored. *)
  Definition a_newobj (d : nat) (name : string) (i : nat) (m : mem) : mem * unit :=
    (set_objs (set_dicts m (upd d (dset (nth d (m_dicts m) []) name (length (m_objs m))) (m_dicts m)))
              (m_objs m ++ [{| o_name := name; o_by := i; o_resp := blank |}]), tt).
  Definition dict_of (m : mem) (d : nat) : dict nat := nth d (m_dicts m) [].
  Definition resp_of (m : mem) (id : nat) : resp T := o_resp (nth id (m_objs m) no_obj).
  (** self.attribute = value, of a Response *)
  Definition a_put (id : nat) (u : resp T -> resp T) (_ : nat) (m : mem) : mem * unit :=
    let o := nth id (m_objs m) no_obj in
    (set_objs m (upd id {| o_name := o_name o; o_by := o_by o; o_resp := u (o_resp o) |} (m_objs m)), tt).
  (** self.attribute = value, of the spectra.  [sid] is a number of an object that exists. *)
  Variable no_sed : sed T.
  Definition sed_of (m : mem) (sid : nat) : sed T := nth sid (m_seds m) no_sed.
  Definition a_sput (sid : nat) (u : sed T -> sed T) (_ : nat) (m : mem) : mem * unit :=
    (set_seds m (upd sid (u (sed_of m sid)) (m_seds m)), tt).

  Notation "'act' x <- a ; p" := (Act a (fun x => p)) (at level 200, x name, a at level 100, p at level 200, right associativity).
  Notation "'call' x <- p ; q" := (pbind p (fun x => q)) (at level 200, x name, p at level 100, q at level 200, right associativity).
  Definition rget {B} (id : nat) (f : resp T -> B) := a_get (fun m => f (resp_of m id)).
  Definition sget {B} (sid : nat) (f : sed T -> B) := a_get (fun m => f (sed_of m sid)).

  (** Stores of single attributes. *)
  Definition put_wave (w : list T) (r : resp T) : resp T :=
    {| p_wave := Some w; p_resp := p_resp r; p_interp := p_interp r; p_leff := p_leff r; p_solar := p_solar r;
       p_vega2ab := p_vega2ab r; p_fwhm := p_fwhm r |}.
  Definition put_resp (y : list T) (r : resp T) : resp T :=
    {| p_wave := p_wave r; p_resp := Some y; p_interp := p_interp r; p_leff := p_leff r; p_solar := p_solar r;
       p_vega2ab := p_vega2ab r; p_fwhm := p_fwhm r |}.
  Definition put_interp (it : option (interp1 T)) (r : resp T) : resp T :=
    {| p_wave := p_wave r; p_resp := p_resp r; p_interp := it; p_leff := p_leff r; p_solar := p_solar r;
       p_vega2ab := p_vega2ab r; p_fwhm := p_fwhm r |}.
  Definition put_leff (x : T) (r : resp T) : resp T :=
    {| p_wave := p_wave r; p_resp := p_resp r; p_interp := p_interp r; p_leff := Some x; p_solar := p_solar r;
       p_vega2ab := p_vega2ab r; p_fwhm := p_fwhm r |}.
  Definition put_solar (x : option T) (r : resp T) : resp T :=
    {| p_wave := p_wave r; p_resp := p_resp r; p_interp := p_interp r; p_leff := p_leff r; p_solar := x;
       p_vega2ab := p_vega2ab r; p_fwhm := p_fwhm r |}.
  Definition put_vega (x : option T) (r : resp T) : resp T :=
    {| p_wave := p_wave r; p_resp := p_resp r; p_interp := p_interp r; p_leff := p_leff r; p_solar := p_solar r;
       p_vega2ab := x; p_fwhm := p_fwhm r |}.
  Definition put_fwhm (x : T * T * T) (r : resp T) : resp T :=
    {| p_wave := p_wave r; p_resp := p_resp r; p_interp := p_interp r; p_leff := p_leff r; p_solar := p_solar r;
       p_vega2ab := p_vega2ab r; p_fwhm := Some x |}.

  Variable cub : list T -> list T -> T -> T.
  Variable bq : (T -> T) -> T -> T -> res T.
  Variable sun vega : res (list T * list (basel_unit T)).
  Variable fs : @fsys T.

  (** The parts of a Response that [project] reads. *)
  Definition seen (w : option (list T)) (it : option (interp1 T)) : resp T :=
    {| p_wave := w; p_resp := None; p_interp := it; p_leff := None; p_solar := None; p_vega2ab := None; p_fwhm := None |}.

  (** * response.py:81-90, [ResponseDict()] *)
  Definition t_dict : prog (res nat) :=
    act i <- a_get m_inst;
    match i with
    | Some _ => act j <- a_get m_inst; fin (match j with Some d => Ok d | None => Raise KeyError end)
    | None => act _ <- a_newdict; act j <- a_get m_inst; fin (match j with Some d => Ok d | None => Raise KeyError end)
    end.

  (** response.py:438-481 [set_fwhm_limits] *)
  Definition t_fwhm (id : nat) : prog (res unit) :=
    act w <- rget id p_wave; act it <- rget id p_interp;
    match w, it with
    | Some w, Some it => match fwhm_limits cub bq w it with
                         | Raise e => fin (Raise e)
                         | Ok x => act _ <- a_put id (put_fwhm x); fin (Ok tt)
                         end
    | None, _ => fin (Raise AttributeError)
    | Some _, None => fin (Raise TypeError)
    end.
  (** response.py:519-552 [set_vega2ab] *)
  Definition t_vega (id : nat) : prog (res unit) :=
    act w <- rget id p_wave; act it <- rget id p_interp;
    match ref_magnitude cub (vega_scale) vega (seen w it) with
    | Raise e => fin (Raise e)
    | Ok x => act _ <- a_put id (put_vega x); t_fwhm id
    end.
  (** response.py:483-517 [set_solar_magnitude] *)
  Definition t_solar (id : nat) : prog (res unit) :=
    act w <- rget id p_wave; act it <- rget id p_interp;
    match ref_magnitude cub (sun_scale) sun (seen w it) with
    | Raise e => fin (Raise e)
    | Ok x => act _ <- a_put id (put_solar x); t_vega id
    end.
  (** response.py:413-436 [set_lambda_eff] *)
  Definition t_leff (id : nat) : prog (res unit) :=
    act w <- rget id p_wave; act y <- rget id p_resp;
    match w, y with
    | Some w, Some y => act _ <- a_put id (put_leff (lambda_eff w y)); t_solar id
    | _, _ => fin (Raise TypeError)
    end.
  (** response.py:215-222 [_setup], 230-239 [set_interp] *)
  Definition t_setup (id : nat) : prog (res unit) :=
    act w <- rget id p_wave; act y <- rget id p_resp;
    match w, y with
    | Some _, Some _ =>
      act w <- rget id p_wave; act y <- rget id p_resp;
      match w, y with
      | Some w, Some y => match mk_cubic w (vec y) with
                          | Raise e => fin (Raise e)
                          | Ok it => act _ <- a_put id (put_interp (Some it)); t_leff id
                          end
      | _, _ => fin (Raise ValueError)
      end
    | _, _ => act _ <- a_put id (put_interp None); t_leff id
    end.
  (** response.py:262-291 [fromdat] *)
  Definition t_fromdat (id : nat) (table : option (res (list T * list T))) : prog (res unit) :=
    match table with
    | None => fin (Raise ValueError)
    | Some (Raise e) => fin (Raise e)
    | Some (Ok wy) =>
      match sort_pair (fst wy) (snd wy) with
      | Raise e => fin (Raise e)
      | Ok wr => act _ <- a_put id (put_wave (fst wr)); act _ <- a_put id (put_resp (snd wr)); t_setup id
      end
    end.
  (** response.py:97-113 [load_response] *)
  Definition t_load (d : nat) (name : string) (reload : bool) : prog (res unit) :=
    act b <- a_get (fun m => dmem (dict_of m d) name);
    if b && negb reload then fin (Ok tt)
    else act _ <- a_newobj d name;
         act o <- a_get (fun m => dget (dict_of m d) name);
         match o with
         | None => fin (Raise KeyError)
         | Some id => t_fromdat id (fs (name ++ ".dat")%string)
         end.

  (** * template.py:226-245 [set_redshift], 127-139 [set_interp] *)
  Definition put_swave (w : list T) (s : sed T) : sed T :=
    {| s_rwave := s_rwave s; s_rflux := s_rflux s; s_wave := w; s_flux := s_flux s; s_z := s_z s; s_flag := s_flag s;
       s_interp := s_interp s; s_bin := s_bin s |}.
  Definition put_sflux (f : nd T) (s : sed T) : sed T :=
    {| s_rwave := s_rwave s; s_rflux := s_rflux s; s_wave := s_wave s; s_flux := f; s_z := s_z s; s_flag := s_flag s;
       s_interp := s_interp s; s_bin := s_bin s |}.
  Definition put_sz (z : T) (s : sed T) : sed T :=
    {| s_rwave := s_rwave s; s_rflux := s_rflux s; s_wave := s_wave s; s_flux := s_flux s; s_z := z; s_flag := s_flag s;
       s_interp := s_interp s; s_bin := s_bin s |}.
  Definition put_sinterp (it : interp1 T) (s : sed T) : sed T :=
    {| s_rwave := s_rwave s; s_rflux := s_rflux s; s_wave := s_wave s; s_flux := s_flux s; s_z := s_z s; s_flag := s_flag s;
       s_interp := Some it; s_bin := s_bin s |}.
  Definition put_sflag (b : bool) (s : sed T) : sed T :=
    {| s_rwave := s_rwave s; s_rflux := s_rflux s; s_wave := s_wave s; s_flux := s_flux s; s_z := s_z s; s_flag := b;
       s_interp := s_interp s; s_bin := s_bin s |}.
  Definition t_redshift (sid : nat) (z : T) : prog (res unit) :=
    act w <- sget sid s_rwave; act _ <- a_sput sid (put_swave (map (fun x => nmul x (nadd n1 z)) w));
    act f <- sget sid s_rflux; act _ <- a_sput sid (put_sflux (map1 (fun x => ndiv x (nadd n1 z)) f));
    act _ <- a_sput sid (put_sz z);
    act b <- sget sid s_flag;
    if b : bool
    then act w <- sget sid s_wave; act f <- sget sid s_flux;
         match mk_cubic w f with
         | Raise e => fin (Raise e)
         | Ok it => act _ <- a_sput sid (put_sinterp it); act _ <- a_sput sid (put_sflag true); fin (Ok tt)
         end
    else fin (Ok tt).

  (** * fitter.py:80-113 [_calc_Amatrix] *)
  (** fitter.py:84-85 *)
  Fixpoint t_load_all (d : nat) (names : list string) : prog (res unit) :=
    match names with
    | [] => fin (Ok tt)
    | n :: r => call _ <- t_load d n false; t_load_all d r
    end.
  (** fitter.py:97-106, response.py:346-411: one block of spectra, [flux[i:e, :]] *)
  Fixpoint t_chunks (d : nat) (name : string) (sid : nat) (starts : list nat) (row : list T) : prog (res (list T)) :=
    match starts with
    | [] => fin (Ok row)
    | i :: r =>
      act ns <- sget sid (@s_nsed T);
      let e := Nat.min (i + 1000) ns in
      act o <- a_get (fun m => dget (dict_of m d) name);
      match o with
      | None => fin (Raise KeyError)
      | Some id =>
        act w <- sget sid s_wave; act f <- sget sid s_flux; act rw <- rget id p_wave; act ri <- rget id p_interp;
        match (do v <- project_arr cub (seen rw ri) (vec w) (flux_rows f i e); bto n0 [e - i] v) with
        | Raise x => fin (Raise x)
        | Ok vs => t_chunks d name sid r (splice i e (map cst vs) row)
        end
      end
    end.
  (** fitter.py:92-106, one band *)
  Definition t_row (d : nat) (name : string) (sid : nat) : prog (res (list T)) :=
    act b <- sget sid s_flag;
    if b : bool
    then act o <- a_get (fun m => dget (dict_of m d) name);
         match o with
         | None => fin (Raise KeyError)
         | Some id =>
           act sw <- sget sid s_wave; act si <- sget sid s_interp; act ns <- sget sid (@s_nsed T);
           act rw <- rget id p_wave; act ri <- rget id p_interp;
           fin (do v <- (match rw with Some rw => project_core cub rw ri sw si ns | None => Raise TypeError end);
                rmap (map cst) (bto n0 [ns] v))
         end
    else act ns <- sget sid (@s_nsed T); t_chunks d name sid (chunk_starts 1000 ns) (repeat n0 ns).
  Fixpoint t_bands (d : nat) (names : list string) (sid : nat) : prog (res (list (list T))) :=
    match names with
    | [] => fin (Ok [])
    | n :: r => call row <- t_row d n sid; call rows <- t_bands d r sid; fin (Ok (row :: rows))
    end.
  (** fitter.py:91-106 *)
  Fixpoint t_loop (d : nat) (names : list string) (zs : list T) (sid : nat) : prog (res (list (list T))) :=
    match zs with
    | [] => fin (Ok [])
    | z :: r =>
      call _ <- t_redshift sid z; call rows <- t_bands d names sid; call tab <- t_loop d names r sid;
      fin (Ok (concat rows :: tab))
    end.
  Definition t_calc (names : list string) (zs : list T) (sid : nat) : prog (res (atab T)) :=
    call d <- t_dict; call _ <- t_load_all d names;
    act ns <- sget sid (@s_nsed T);
    call tab <- t_loop d names zs sid;
    match mk_linear zs (mk [length zs; length names; ns] (concat tab)) with
    | Raise e => fin (Raise e)
    | Ok A => call _ <- t_redshift sid n0; fin (Ok A)
    end.

  (** What a thread does: load a response (ResponseDict().load_response(...)), or build a design matrix. *)
  Inductive job := JLoad (name : string) (reload : bool) | JBuild (names : list string) (zs : list T) (sid : nat).
  Definition t_job (j : job) : prog (res (option (atab T))) :=
    match j with
    | JLoad n b => call d <- t_dict; call _ <- t_load d n b; fin (Ok None)
    | JBuild names zs sid => call A <- t_calc names zs sid; fin (Ok (Some A))
    end.

  (** Jobs none of which uses reload=True, each building with its own spectra. *)
  Definition tame (jobs : list job) (m : mem) : Prop :=
    (forall i n, nth_error jobs i <> Some (JLoad n true)) /\
    (forall i names zs sid, nth_error jobs i = Some (JBuild names zs sid) -> sid < length (m_seds m)) /\
    (forall i j names zs names' zs' sid, nth_error jobs i = Some (JBuild names zs sid) ->
       nth_error jobs j = Some (JBuild names' zs' sid) -> i = j).
  (** Dictionary [d] is the singleton and its values are objects. *)
  Definition sane (m : mem) (d : nat) : Prop :=
    m_inst m = Some d /\ d < length (m_dicts m) /\ Forall (fun id => id < length (m_objs m)) (map snd (dict_of m d)).
  (** All threads have finished. *)
  Definition all_done {A} (ps : list (prog A)) : Prop := Forall (fun p => exists a, p = Ret a) ps.

  (** The cache as the sequential model sees it (RespDict.v). *)
  Definition view (m : mem) (d : nat) : dict (resp T) := map (fun e => (fst e, resp_of m (snd e))) (dict_of m d).
End Threads.
Arguments obj : clear implicits.
Arguments mem : clear implicits.
Arguments prog : clear implicits.
Arguments job : clear implicits.
Arguments Ret {T A} a.
Arguments Act {T A B} f k.
