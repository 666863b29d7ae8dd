(** Response.fromdat on parsed tables (response.py:262-291), column by column. *)
From Coq Require Import String List Arith.
From Verif Require Import Base Num Interp Utils Sed Response Persist.
Import ListNotations.

Section RespCols.
  Context {T : Type} {N : Num T}.
  Variable cub : list T -> list T -> T -> T.
  Variable bq : (T -> T) -> T -> T -> res T.
  Variable sun vega : res (list T * list (basel_unit T)).

  (** dat[name] of an astropy table, the columns by name; KeyError when there is none. *)
  Definition column (dat : list (string * list T)) (name : string) : res (list T) :=
    match find (fun c => String.eqb (fst c) name) dat with
    | Some c => Ok (snd c)
    | None => Raise KeyError
    end.

  (** response.py:262-291 [fromdat] of an existing object, as [fromdat] of Response.v but from the table itself: None when
      the file does not exist, Raise e when astropy.io.ascii fails to parse it.  The wavelengths are sorted and stored
      (lines 287-288) before the column 'pass' is read (line 289). *)
  Definition fromdat_table (r : resp T) (table : option (res (list (string * list T)))) : resp T * option exn :=
    match table with
    | None => (r, Some ValueError)
    | Some (Raise e) => (r, Some e)
    | Some (Ok dat) =>
      match column dat "lambda" with
      | Raise e => (r, Some e)
      | Ok w =>
        match (do y <- column dat "pass"; sort_pair w y) with
        | Raise e => (with_wave r (map (fun k => nth k w n0) (argsort w)), Some e)
        | Ok wr => resp_setup cub bq sun vega (with_curve r (fst wr) (snd wr))
        end
      end
    end.
End RespCols.
