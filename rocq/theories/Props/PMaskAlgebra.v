(** Property theorems C141: masked statistics of finite arrays are statistics. *)
From Coq Require Import List Arith Reals Lra Lia.
From Verif Require Import Model.Float Model.Masks Spec.MaskSpec Spec.MaskAlgebraSpec Proofs.MaskAlgebraProofs.
Import ListNotations.
Local Open Scope R_scope.

(** C141: the mean is within the range of the selected values and follows units and origins. *)
Theorem C141_mean :
  forall fm s ms l, length ms = size s -> length l = size s -> selected ms l <> [] ->
  exists m, mask_mean fm None (Arr s ms) (finite_array s l) = Some (Arr [] [Fin m]) /\
    (forall a b, Forall (fun r => a <= r <= b) (selected ms l) -> a <= m <= b) /\
    (forall c d, mask_mean fm None (Arr s ms) (finite_array s (map (fun r => c * r + d) l)) = Some (Arr [] [Fin (c * m + d)])).
Proof. exact (fun fm s ms l Hm => @mean_statistics fm s ms Hm l). Qed.
Print Assumptions C141_mean.

(** C141: the variance behind MaskStd vanishes exactly for equal values, ignores origins and follows the square of units. *)
Theorem C141_std :
  forall fm s ms l, length ms = size s -> length l = size s -> selected ms l <> [] ->
  exists v, 0 <= v /\ (v = 0 <-> all_equal (selected ms l)) /\
    (forall eps c d, 0 <= eps ->
       mask_std fm eps None false (Arr s ms) (finite_array s (map (fun r => c * r + d) l)) = Some (Arr [] [Fin (regular_std eps (c ^ 2 * v))])) /\
    (forall eps, 0 <= eps -> mask_std fm eps None false (Arr s ms) (finite_array s l) = Some (Arr [] [Fin (regular_std eps v)])).
Proof. exact (fun fm s ms l Hm => @std_statistics fm s ms Hm l). Qed.
Print Assumptions C141_std.

(** C141: the standard deviation of what MaskNormalize returns is at most 1, and 1 without regularisation. *)
Theorem C141_normalized :
  forall fm s ms eps (centered : bool) l, length ms = size s -> 0 <= eps -> length l = size s -> selected ms l <> [] ->
  let v := if centered then second_moment (selected ms l) else var_of (selected ms l) in
  0 < v ->
  exists y, mask_normalize fm eps None centered (Arr s ms) (finite_array s l) = Some (finite_array s y) /\
    mask_std fm 0 None centered (Arr s ms) (finite_array s y) = Some (Arr [] [Fin (sqrt (v / (eps + v)))]) /\
    sqrt (v / (eps + v)) <= 1 /\ (eps = 0 -> sqrt (v / (eps + v)) = 1).
Proof. exact (fun fm s ms eps c l Hm => @normalize_std fm s ms Hm eps c l). Qed.
Print Assumptions C141_normalized.

(** C141: data in another unit are normalised to the same values, up to the sign of the unit, with the regularisation
    divided by its square. *)
Theorem C141_normalize_units :
  forall fm s ms eps (centered : bool) c l, length ms = size s -> 0 <= eps -> c <> 0 -> length l = size s -> selected ms l <> [] ->
  exists y, mask_normalize fm (eps / c ^ 2) None centered (Arr s ms) (finite_array s l) = Some (finite_array s y) /\
    mask_normalize fm eps None centered (Arr s ms) (finite_array s (map (fun r => c * r) l)) =
      Some (finite_array s (map (fun r => sign c * r) y)).
Proof. exact (fun fm s ms eps ce c l Hm => @normalize_scale fm s ms Hm eps ce c l). Qed.
Print Assumptions C141_normalize_units.

(** C141: the mean over two disjoint masks is the mean of the means, weighted by the numbers of selected values. *)
Theorem C141_disjoint_masks :
  forall fm s ms ns l, length ms = size s -> length ns = size s -> length l = size s -> apart ms ns ->
  selected ms l <> [] -> selected ns l <> [] ->
  exists a b, mask_mean fm None (Arr s ms) (finite_array s l) = Some (Arr [] [Fin a]) /\
    mask_mean fm None (Arr s ns) (finite_array s l) = Some (Arr [] [Fin b]) /\
    mask_mean fm None (Arr s (either ms ns)) (finite_array s l) =
      Some (Arr [] [Fin ((INR (length (selected ms l)) * a + INR (length (selected ns l)) * b) /
                         (INR (length (selected ms l)) + INR (length (selected ns l))))]).
Proof. exact @merge_means. Qed.
Print Assumptions C141_disjoint_masks.

Example C141_example :
  let l := [1; 7; 3; 5] in let ms := [true; false; true; false] in let ns := [false; false; false; true] in
  length ms = size [2; 2]%nat /\ selected ms l = [1; 3] /\ var_of (selected ms l) = 1 /\ apart ms ns /\
  either ms ns = [true; false; true; true] /\ selected ns l <> [].
Proof.
  cbv zeta. split; [reflexivity|]. split; [reflexivity|]. split; [|split; [|split; [reflexivity|discriminate]]].
  - cbn [selected]. unfold var_of, mean_of, total. cbn. field.
  - unfold apart. cbn. repeat constructor.
Qed.
