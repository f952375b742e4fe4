(** The four-point one-loop mass function: src/models/ClassPotentialOrigin.cpp 389-857.
    Doubles are real numbers; [None] is NaN (the logarithm of a negative number), which the program turns
    into a runtime_error (837-854).  No denominator of the selected branch vanishes. *)
From Coq Require Import Reals ZArith List Bool.
From Verif.Model Require Import Base Loop.
Import ListNotations.
Open Scope R_scope.

(** an if / else if chain, 421-835: the first condition that holds; [d] is the value if none does *)
Fixpoint pick (l : list (bool * option R)) (d : option R) : option R :=
  match l with
  | [] => d
  | (true, v) :: _ => v
  | (false, _) :: t => pick t d
  end.
(** a computation with NaN: LogA etc. of 414-417 enter a branch only where they are used *)
Definition obind (o : option R) (f : R -> option R) : option R := match o with Some x => f x | None => None end.

(** thresZero and thresDeg, 401-402 *)
Definition Thres4 : R := 1 / 1000000.
(** 403-406 *)
Definition snap0_4 (m : R) : R := if Rlt_dec (Rabs m) Thres4 then 0 else m.
(** 407-412: if (std::abs(x - y) < thresDeg) y = x *)
Definition snap4 (x y : R) : R := if Rlt_dec (Rabs (x - y)) Thres4 then x else y.

Section Scale.
  Variable scale : R.   (* renormalisation scale, positive *)

  (** 421-835; the branches are numbered as by the variable C of the program.  A chain nested in a branch
      (566-661) that matches nothing leaves res = 0 of 395. *)
  Definition four_branch (a b c d : R) : option R :=
    pick [
      (is0 a && is0 b && is0 c && is0 d, (* 1 *) Some (0));
      (negb (is0 a) && is0 b && is0 c && is0 d, (* 2 *) obind (LogM scale a) (fun LA => Some (LA / (a * a))));
      (is0 a && negb (is0 b) && is0 c && is0 d, (* 3 *) obind (LogM scale b) (fun LB => Some (LB / (b * b))));
      (is0 a && is0 b && negb (is0 c) && is0 d, (* 4 *) obind (LogM scale c) (fun LC => Some (LC / (c * c))));
      (is0 a && is0 b && is0 c && negb (is0 d), (* 5 *) obind (LogM scale d) (fun LD => Some (LD / (d * d))));
      (eqb a b && negb (is0 a) && is0 c && is0 d, (* 6 *) obind (LogM scale a) (fun LA => Some ((2 - LA) / (a * a))));
      (eqb a c && negb (is0 a) && is0 b && is0 d, (* 7 *) obind (LogM scale a) (fun LA => Some ((2 - LA) / (a * a))));
      (eqb a d && negb (is0 a) && is0 b && is0 c, (* 8 *) obind (LogM scale a) (fun LA => Some ((2 - LA) / (a * a))));
      (eqb b c && negb (is0 b) && is0 a && is0 d, (* 9 *) obind (LogM scale b) (fun LB => Some ((2 - LB) / (b * b))));
      (eqb b d && negb (is0 b) && is0 a && is0 c, (* 10 *) obind (LogM scale b) (fun LB => Some ((2 - LB) / (b * b))));
      (eqb c d && negb (is0 c) && is0 a && is0 b, (* 11 *) obind (LogM scale c) (fun LC => Some ((2 - LC) / (c * c))));
      (negb (is0 a) && negb (is0 b) && negb (eqb a b) && is0 c && is0 d, (* 12 *) obind (LogM scale a) (fun LA => obind (LogM scale b) (fun LB => Some (1 / (a * b) + (b * LA - a * LB) / (a * b * (a - b))))));
      (negb (is0 a) && negb (is0 c) && negb (eqb a c) && is0 b && is0 d, (* 13 *) obind (LogM scale a) (fun LA => obind (LogM scale c) (fun LC => Some (1 / (a * c) + (c * LA - a * LC) / (a * c * (a - c))))));
      (negb (is0 a) && negb (is0 d) && negb (eqb a d) && is0 b && is0 c, (* 14 *) obind (LogM scale a) (fun LA => obind (LogM scale d) (fun LD => Some (1 / (a * d) + (d * LA - a * LD) / (a * d * (a - d))))));
      (negb (is0 b) && negb (is0 c) && negb (eqb b c) && is0 a && is0 d, (* 15 *) obind (LogM scale b) (fun LB => obind (LogM scale c) (fun LC => Some (1 / (b * c) + (c * LB - b * LC) / (b * c * (b - c))))));
      (negb (is0 b) && negb (is0 d) && negb (eqb b d) && is0 a && is0 c, (* 16 *) obind (LogM scale b) (fun LB => obind (LogM scale d) (fun LD => Some (1 / (b * d) + (d * LB - b * LD) / (b * d * (b - d))))));
      (negb (is0 c) && negb (is0 d) && negb (eqb c d) && is0 a && is0 b, (* 17 *) obind (LogM scale c) (fun LC => obind (LogM scale d) (fun LD => Some (1 / (c * d) + (d * LC - c * LD) / (c * d * (c - d))))));
      (is0 a && eqb b c && eqb b d && negb (is0 b), (* 18 *) Some (- 1 / (2 * b * b)));
      (is0 b && eqb a c && eqb a d && negb (is0 a), (* 19 *) Some (- 1 / (2 * a * a)));
      (is0 c && eqb a b && eqb a d && negb (is0 a), (* 20 *) Some (- 1 / (2 * a * a)));
      (is0 d && eqb a b && eqb a c && negb (is0 a), (* 21 *) Some (- 1 / (2 * a * a)));
      (is0 a && negb (is0 b) && negb (is0 c) && negb (is0 d), pick [
        (eqb b c && negb (eqb d b), (* 22 *) obind (LogM scale b) (fun LB => obind (LogM scale d) (fun LD => Some ((b - d + b * LD - b * LB) / (b * (b - d) * (b - d))))));
        (eqb b d && negb (eqb c b), (* 23 *) obind (LogM scale b) (fun LB => obind (LogM scale c) (fun LC => Some ((b - c + b * LC - b * LB) / (b * (b - c) * (b - c))))));
        (eqb c d && negb (eqb b c), (* 24 *) obind (LogM scale b) (fun LB => obind (LogM scale c) (fun LC => Some ((c - b + c * LB - c * LC) / (c * (b - c) * (b - c))))))
        ] (Some 0));
      (negb (is0 a) && is0 b && negb (is0 c) && negb (is0 d), pick [
        (eqb a c && negb (eqb d a), (* 25 *) obind (LogM scale a) (fun LA => obind (LogM scale d) (fun LD => Some ((a - d + a * LD - a * LA) / (a * (a - d) * (a - d))))));
        (eqb a d && negb (eqb c a), (* 26 *) obind (LogM scale a) (fun LA => obind (LogM scale c) (fun LC => Some ((a - c + a * LC - a * LA) / (a * (a - c) * (a - c))))));
        (eqb c d && negb (eqb a c), (* 27 *) obind (LogM scale a) (fun LA => obind (LogM scale c) (fun LC => Some ((c - a + c * LA - c * LC) / (c * (c - a) * (c - a))))))
        ] (Some 0));
      (negb (is0 a) && negb (is0 b) && is0 c && negb (is0 d), pick [
        (eqb a b && negb (eqb d a), (* 28 *) obind (LogM scale a) (fun LA => obind (LogM scale d) (fun LD => Some ((a - d + a * LD - a * LA) / (a * (a - d) * (a - d))))));
        (eqb a d && negb (eqb b a), (* 29 *) obind (LogM scale a) (fun LA => obind (LogM scale b) (fun LB => Some ((a - b + a * LB - a * LA) / (a * (a - b) * (a - b))))));
        (eqb b d && negb (eqb a b), (* 30 *) obind (LogM scale a) (fun LA => obind (LogM scale b) (fun LB => Some ((b - a + b * LA - b * LB) / (b * (a - b) * (a - b))))))
        ] (Some 0));
      (negb (is0 a) && negb (is0 b) && negb (is0 c) && is0 d, pick [
        (eqb a b && negb (eqb c a), (* 31 *) obind (LogM scale a) (fun LA => obind (LogM scale c) (fun LC => Some ((a - c + a * LC - a * LA) / (a * (a - c) * (a - c))))));
        (eqb a c && negb (eqb b a), (* 32 *) obind (LogM scale a) (fun LA => obind (LogM scale b) (fun LB => Some ((a - b + a * LB - a * LA) / (a * (a - b) * (a - b))))));
        (eqb b c && negb (eqb a b), (* 33 *) obind (LogM scale a) (fun LA => obind (LogM scale b) (fun LB => Some ((b - a + b * LA - b * LB) / (b * (a - b) * (a - b))))))
        ] (Some 0));
      (is0 a && negb (eqb b c) && negb (eqb b d) && negb (eqb c d) && negb (is0 b) && negb (is0 c) && negb (is0 d), (* 34 *) obind (LogM scale b) (fun LB => obind (LogM scale c) (fun LC => obind (LogM scale d) (fun LD => Some (LB / (b - c) / (b - d) + LC / (c - b) / (c - d) + LD / (d - b) / (d - c))))));
      (is0 b && negb (eqb a c) && negb (eqb a d) && negb (eqb c d) && negb (is0 a) && negb (is0 c) && negb (is0 d), (* 35 *) obind (LogM scale a) (fun LA => obind (LogM scale c) (fun LC => obind (LogM scale d) (fun LD => Some (LA / (a - c) / (a - d) + LC / (c - a) / (c - d) + LD / (d - a) / (d - c))))));
      (is0 c && negb (eqb a b) && negb (eqb a d) && negb (eqb b d) && negb (is0 a) && negb (is0 b) && negb (is0 d), (* 36 *) obind (LogM scale a) (fun LA => obind (LogM scale b) (fun LB => obind (LogM scale d) (fun LD => Some (LA / (a - b) / (a - d) + LB / (b - a) / (b - d) + LD / (d - a) / (d - b))))));
      (is0 d && negb (eqb a b) && negb (eqb a c) && negb (eqb b c) && negb (is0 a) && negb (is0 b) && negb (is0 c), (* 37 *) obind (LogM scale a) (fun LA => obind (LogM scale b) (fun LB => obind (LogM scale c) (fun LC => Some (LA / (a - b) / (a - c) + LB / (b - a) / (b - c) + LC / (c - a) / (c - b))))));
      (eqb a b && eqb b c && eqb c d && negb (is0 a), (* 38 *) Some (- 1 / (6 * a * a)));
      (eqb a b && negb (eqb c d) && negb (eqb a c) && negb (eqb a d) && negb (is0 a) && negb (is0 c) && negb (is0 d), (* 39 *) obind (LogM scale a) (fun LA => obind (LogM scale c) (fun LC => obind (LogM scale d) (fun LD => Some ((c * (a - d) * (a - d) * LC - d * (a - c) * (a - c) * LD + (c - d) * ((a - c) * (a - d) + (- a * a + c * d) * LA)) / ((a - c) * (a - c) * (a - d) * (a - d) * (c - d)))))));
      (eqb a c && negb (eqb b d) && negb (eqb a b) && negb (eqb a d) && negb (is0 a) && negb (is0 b) && negb (is0 d), (* 40 *) obind (LogM scale a) (fun LA => obind (LogM scale b) (fun LB => obind (LogM scale d) (fun LD => Some ((b * (a - d) * (a - d) * LB - d * (a - b) * (a - b) * LD + (b - d) * ((a - b) * (a - d) + (- a * a + b * d) * LA)) / ((a - b) * (a - b) * (a - d) * (a - d) * (b - d)))))));
      (eqb a d && negb (eqb b c) && negb (eqb a b) && negb (eqb a c) && negb (is0 a) && negb (is0 b) && negb (is0 c), (* 41 *) obind (LogM scale a) (fun LA => obind (LogM scale b) (fun LB => obind (LogM scale c) (fun LC => Some ((b * (a - c) * (a - c) * LB - c * (a - b) * (a - b) * LC + (b - c) * ((a - b) * (a - c) + (- a * a + b * c) * LA)) / ((a - b) * (a - b) * (a - c) * (a - c) * (b - c)))))));
      (eqb b c && negb (eqb a d) && negb (eqb b a) && negb (eqb b d) && negb (is0 b) && negb (is0 a) && negb (is0 d), (* 42 *) obind (LogM scale a) (fun LA => obind (LogM scale b) (fun LB => obind (LogM scale d) (fun LD => Some ((a * (b - d) * (b - d) * LA - d * (a - b) * (a - b) * LD + (a - d) * (- (a - b) * (b - d) + (- b * b + a * d) * LB)) / ((a - b) * (a - b) * (b - d) * (b - d) * (a - d)))))));
      (eqb b d && negb (eqb a c) && negb (eqb b a) && negb (eqb b c) && negb (is0 b) && negb (is0 a) && negb (is0 c), (* 43 *) obind (LogM scale a) (fun LA => obind (LogM scale b) (fun LB => obind (LogM scale c) (fun LC => Some ((a * (b - c) * (b - c) * LA - c * (a - b) * (a - b) * LC + (a - c) * (- (a - b) * (b - c) + (- b * b + a * c) * LB)) / ((a - b) * (a - b) * (b - c) * (b - c) * (a - c)))))));
      (eqb c d && negb (eqb a b) && negb (eqb c a) && negb (eqb c b) && negb (is0 c) && negb (is0 c) && negb (is0 d), (* 44 *) obind (LogM scale a) (fun LA => obind (LogM scale b) (fun LB => obind (LogM scale c) (fun LC => Some ((a * (b - c) * (b - c) * LA - b * (a - c) * (a - c) * LB + (a - b) * ((a - c) * (b - c) + (- c * c + a * b) * LC)) / ((a - c) * (a - c) * (b - c) * (b - c) * (a - b)))))));
      (eqb a b && eqb c d && negb (eqb a c) && negb (is0 a) && negb (is0 c), (* 45 *) obind (LogM scale a) (fun LA => obind (LogM scale c) (fun LC => Some ((2 * (a - c) + (a + c) * (LC - LA)) / ((a - c) * (a - c) * (a - c))))));
      (eqb a c && eqb b d && negb (eqb a b) && negb (is0 a) && negb (is0 b), (* 46 *) obind (LogM scale a) (fun LA => obind (LogM scale b) (fun LB => Some ((2 * (a - b) + (a + b) * (LB - LA)) / ((a - b) * (a - b) * (a - b))))));
      (eqb a d && eqb b c && negb (eqb a b) && negb (is0 a) && negb (is0 b), (* 47 *) obind (LogM scale a) (fun LA => obind (LogM scale b) (fun LB => Some ((2 * (a - b) + (a + b) * (LB - LA)) / ((a - b) * (a - b) * (a - b))))));
      (eqb a b && eqb a c && negb (is0 a) && negb (eqb a d) && negb (is0 d), (* 48 *) obind (LogM scale a) (fun LA => obind (LogM scale d) (fun LD => Some ((- a * a + d * d + 2 * a * d * (LA - LD)) / (2 * a * (a - d) * (a - d) * (a - d))))));
      (eqb a b && eqb a d && negb (is0 a) && negb (eqb a c) && negb (is0 c), (* 49 *) obind (LogM scale a) (fun LA => obind (LogM scale c) (fun LC => Some ((- a * a + c * c + 2 * a * c * (LA - LC)) / (2 * a * (a - c) * (a - c) * (a - c))))));
      (eqb a c && eqb a d && negb (is0 a) && negb (eqb a b) && negb (is0 b), (* 50 *) obind (LogM scale a) (fun LA => obind (LogM scale b) (fun LB => Some ((- a * a + b * b + 2 * a * b * (LA - LB)) / (2 * a * (a - b) * (a - b) * (a - b))))));
      (eqb b c && eqb b d && negb (is0 b) && negb (eqb a b) && negb (is0 a), (* 51 *) obind (LogM scale a) (fun LA => obind (LogM scale b) (fun LB => Some ((- b * b + a * a + 2 * b * a * (LB - LA)) / (2 * b * (b - a) * (b - a) * (b - a))))))
      ] ((* 52 *) obind (LogM scale a) (fun LA => obind (LogM scale b) (fun LB => obind (LogM scale c) (fun LC => obind (LogM scale d) (fun LD => Some (a * LA / ((a - b) * (a - c) * (a - d)) + b * LB / ((b - a) * (b - c) * (b - d)) + c * LC / ((c - a) * (c - b) * (c - d)) + d * LD / ((d - a) * (d - b) * (d - c)))))))).

  (** 389-857: the substitutions of 403-412 in their order, then the branches *)
  Definition fbaseFour (A B C D : R) : outcome R :=
    let a := snap0_4 A in let b := snap0_4 B in let c := snap0_4 C in let d := snap0_4 D in
    let b := snap4 a b in
    let c := snap4 a c in
    let d := snap4 a d in
    let c := snap4 b c in
    let d := snap4 b d in
    let d := snap4 c d in
    match four_branch a b c d with Some r => Ok r | None => Throw RuntimeError end.
End Scale.
