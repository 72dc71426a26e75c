(** Rounded arithmetic for the compiled exponential average: the loop of Model/Ewm.v ([numba_cell]) with the result of
    every floating point operation rounded.  Simplifications: as in Model/Rounded.v; the state has the precision of
    the computation (the code stores it with the dtype of the data, lines 100-105). *)
From Coq Require Import List ZArith Reals.
From Verif Require Import Model.Unroll Model.Float Model.Modules Model.Ewm Model.Rounded.
Import ListNotations.
Local Open Scope R_scope.

Section Rounded.
  Variable rnd : fl -> fl.

  (** numba/ewma_numba.py lines 147-184, one column.  With [rnd] the identity this is [numba_cell]. *)
  Definition numba_cell_r (cfg : ewma_cfg) (st : ewma_state) (cur : fl) : fl * ewma_state :=
    let alpha := rnd (fdiv (Fin 1) (rnd (fadd (Fin 1) (Fin (com cfg))))) in      (* 95 *)
    let new_wt := if truthy (adjust cfg) then Fin 1 else alpha in                (* 139-142 *)
    let is_obs := negb (isnan cur) in                                            (* 150 *)
    let nobs' := (nobs st + (if is_obs then 1 else 0))%Z in                      (* 151 *)
    let avg := ew_mean st in
    let '(avg', old') :=
      if negb (isnan avg) then                                                   (* 153 *)
        let '(factor, old1) :=
          match adjust cfg with
          | AdjLinear =>                                                         (* 154-162 *)
              (if is_obs then Fin 1
               else if flt (Fin 0) (old_wt st)
                    then fmax (Fin 0) (rnd (fdiv (rnd (fsub (old_wt st) (Fin 1))) (old_wt st)))
                    else Fin 0,
               fmin (old_wt st) (Fin (com cfg)))
          | _ => (rnd (fsub (Fin 1) alpha), old_wt st)                           (* 164 *)
          end in
        if orb is_obs (negb (ignore_na cfg)) then                                (* 166 *)
          let old2 := rnd (fmul old1 factor) in                                  (* 169 *)
          if is_obs then                                                         (* 170-179 *)
            let avg' := if fne avg cur
                        then rnd (fdiv (rnd (fadd (rnd (fmul old2 avg)) (rnd (fmul new_wt cur))))
                                       (rnd (fadd old2 new_wt)))
                        else avg in
            (avg', if truthy (adjust cfg) then rnd (fadd old2 new_wt) else Fin 1)
          else (avg, old2)
        else (avg, old1)
      else if is_obs then (cur, old_wt st)                                       (* 180-181 *)
      else (avg, old_wt st) in
    let result := if Z.geb nobs' (min_periods cfg) then avg' else NaN in         (* 183 *)
    (result, EwmaState avg' old' nobs').

  (** one row of the table: columns are processed independently (line 152) *)
  Definition numba_row_r (cfg : ewma_cfg) (ss : list ewma_state) (cur : list fl)
    : list fl * list ewma_state :=
    let r := map2 (numba_cell_r cfg) ss cur in (map fst r, map snd r).

  Fixpoint numba_rows_r (cfg : ewma_cfg) (ss : list ewma_state) (values : list (list fl))
    : list (list fl) * list ewma_state :=
    match values with
    | [] => ([], ss)
    | cur :: rest =>
        let '(r, ss') := numba_row_r cfg ss cur in
        let '(rs, sF) := numba_rows_r cfg ss' rest in (r :: rs, sF)
    end.

  (** numba/ewma_numba.py lines 97-127: apply; [None]: AssertionError (com <= 0) or empty values. *)
  Definition numba_ewma_r (cfg : ewma_cfg) (values : list (list fl)) (state : option (list ewma_state))
    : option (list (list fl) * list ewma_state) :=
    if Rlt_b 0 (com cfg) then
      match state with
      | Some ss => Some (numba_rows_r cfg ss values)
      | None =>
          match values with
          | [] => None
          | row0 :: _ => Some (numba_rows_r cfg (map (fun _ => ewma_init cfg) row0) values)
          end
      end
    else None.
End Rounded.
