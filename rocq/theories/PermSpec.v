(** What the output functions should be: published formulas, counting, and being undone. Uses nothing of the model. *)
From Coq Require Import ZArith.
Local Open Scope Z_scope.

(** Exactly [n] numbers have the property: [f] lists them, [g] tells the place of each. *)
Definition exactly (n : Z) (P : Z -> Prop) : Prop := exists f g : Z -> Z,
  (forall k, 0 <= k < n -> P (f k) /\ g (f k) = k) /\ (forall s, P s -> 0 <= g s < n /\ f (g s) = s).
(** [x] mixed with itself moved down. *)
Definition xorshift (shift x : Z) : Z := Z.lxor x (x / 2 ^ shift).
(** The [w] bits of [x] rotated to the right. *)
Definition rotated (w x r : Z) : Z := x / 2 ^ r + 2 ^ (w - r) * (x mod 2 ^ r).
(** PCG-XSH-RR: [rotbits] top bits say how far to rotate; then the mixed state's next [xb] bits. *)
Definition rr (rotbits shift bits xb s : Z) : Z :=
  rotated xb (xorshift shift s / 2 ^ (bits - rotbits - xb) mod 2 ^ xb) (s / 2 ^ (bits - rotbits)).
(** PCG-XSL-RR: both halves combined, rotated by the top bits. *)
Definition xsl_spec (rotbits xb s : Z) : Z := rotated xb (Z.lxor (s / 2 ^ xb) (s mod 2 ^ xb)) (s / 2 ^ (2 * xb - rotbits)).
(** PCG-XSH-RS: the [shiftbits] top bits say where in the mixed state to take [xb] bits. *)
Definition rs (shiftbits shift bits xb s : Z) : Z :=
  xorshift shift s / 2 ^ (bits - xb - shiftbits - (2 ^ shiftbits - 1) + s / 2 ^ (bits - shiftbits)) mod 2 ^ xb.
(** PCG-RXS-M-XS: a shift chosen by the top bits, a multiplication, a fixed shift. *)
Definition rxs (shiftbits last m bits s : Z) : Z :=
  xorshift last ((xorshift (shiftbits + s / 2 ^ (bits - shiftbits)) s * m) mod 2 ^ bits).
(** PCG-XSL-RR-RR: the combined halves, rotated, and the upper half rotated by the low bits of that. *)
Definition rrr (rotbits h s : Z) : Z :=
  let low := xsl_spec rotbits h s in low + 2 ^ h * rotated h (s / 2 ^ h) (low mod 2 ^ rotbits).
(** A permutation of the numbers below [n]. *)
Definition permutes (n : Z) (f : Z -> Z) : Prop := exists g : Z -> Z,
  (forall s, 0 <= s < n -> 0 <= f s < n /\ g (f s) = s) /\ (forall x, 0 <= x < n -> 0 <= g x < n /\ f (g x) = x).

(** The sizes there are: bits of the state, bits of the result, top bits used, shift. *)
From Coq Require Import List.
Import ListNotations.
Definition rs_sizes : list (Z * Z * Z * Z) := [(16, 8, 2, 7); (32, 16, 2, 11); (64, 32, 3, 22); (128, 64, 4, 43)].
Definition rr_sizes : list (Z * Z * Z * Z) := [(16, 8, 3, 5); (32, 16, 4, 10); (64, 32, 5, 18); (128, 64, 6, 35)].
(** Bits of the result (half of those of the state), top bits used. *)
Definition xsl_sizes : list (Z * Z) := [(32, 5); (64, 6)].
(** Bits, top bits used, last shift, and multiplier. *)
Definition rxs_sizes : list (Z * Z * Z * Z) :=
  [(8, 2, 6, 217); (32, 4, 22, 277803737); (64, 5, 43, 12605985483714917081);
   (128, 6, 86, 327738287884841127335028083622016905945)].
(** Bits, bits of the result, top bits used, and multiplier. *)
Definition rxm_sizes : list (Z * Z * Z * Z) :=
  [(32, 16, 3, 277803737); (64, 32, 4, 12605985483714917081); (128, 64, 5, 327738287884841127335028083622016905945)].
