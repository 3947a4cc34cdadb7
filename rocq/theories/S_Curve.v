(** Elliptic curves over a prime field, as in a textbook: the field of residues modulo p, the points of
    d*y^2 = x^3 + a*x^2 + b*x + c together with a point at infinity, the chord-and-tangent sum and the
    multiples of a point. Written without the model. *)
From Coq Require Import ZArith Bool.
Open Scope Z_scope.

(** residues modulo p: integers equal to their remainder *)
Definition Fp (p : Z) : Type := { x : Z | (x mod p =? x) = true }.
Definition fval {p} (x : Fp p) : Z := proj1_sig x.
Lemma residue_ok p x : ((x mod p) mod p =? x mod p) = true.
Proof. apply Z.eqb_eq, Zmod_mod. Qed.
(** the class of an integer *)
Definition fof (p x : Z) : Fp p := exist _ (x mod p) (residue_ok p x).

Section Field.
  Variable p : Z.
  Definition fadd (x y : Fp p) : Fp p := fof p (fval x + fval y).
  Definition fmul (x y : Fp p) : Fp p := fof p (fval x * fval y).
  Definition fsub (x y : Fp p) : Fp p := fof p (fval x - fval y).
  Definition fopp (x : Fp p) : Fp p := fof p (- fval x).
  (** the inverse of a non-zero residue when p is prime (P_Curve.v, fmul_inv); 0 has inverse 0 *)
  Definition finv (x : Fp p) : Fp p := fof p (fval x ^ (p - 2)).
  Definition fdiv (x y : Fp p) : Fp p := fmul x (finv y).
  Definition feqb (x y : Fp p) : bool := fval x =? fval y.
End Field.
Arguments fadd {p}. Arguments fmul {p}. Arguments fsub {p}. Arguments fopp {p}. Arguments finv {p}.
Arguments fdiv {p}. Arguments feqb {p}.

Declare Scope fp_scope.
Delimit Scope fp_scope with fp.
Infix "+" := fadd : fp_scope. Infix "*" := fmul : fp_scope. Infix "-" := fsub : fp_scope.
Infix "/" := fdiv : fp_scope. Notation "- x" := (fopp x) : fp_scope. Infix "=?" := feqb : fp_scope.
Notation "% n" := (fof _ n) (at level 5, n at level 0, format "% n") : fp_scope.

Inductive point (p : Z) : Type := Inf | Aff (x y : Fp p).
Arguments Inf {p}. Arguments Aff {p}.

Section Curve.
  Variable p : Z.
  Variables a b c d : Fp p.
  Open Scope fp_scope.
  Definition cubic (x : Fp p) : Fp p := x * x * x + a * (x * x) + b * x + c.
  Definition cubic' (x : Fp p) : Fp p := %3 * (x * x) + %2 * a * x + b.
  Definition on_curve (P : point p) : Prop :=
    match P with Inf => True | Aff x y => d * (y * y) = cubic x end.
  (** no point where both partial derivatives vanish *)
  Definition nonsingular : Prop := forall x, cubic x = %0 -> cubic' x <> %0.
  Definition pneg (P : point p) : point p := match P with Inf => Inf | Aff x y => Aff x (- y) end.
  (** reflection of the third intersection of the curve with the line of slope l through (x1, y1),
      where x2 is the abscissa of the second intersection *)
  Definition line3 (l x1 y1 x2 : Fp p) : point p :=
    let x3 := d * (l * l) - a - x1 - x2 in Aff x3 (l * (x1 - x3) - y1).
  Definition padd (P Q : point p) : point p :=
    match P, Q with
    | Inf, _ => Q
    | _, Inf => P
    | Aff x1 y1, Aff x2 y2 =>
        if x1 =? x2
        then if y1 =? - y2 then Inf
             else line3 (cubic' x1 / (%2 * d * y1)) x1 y1 x2
        else line3 ((y2 - y1) / (x2 - x1)) x1 y1 x2
    end.
  (** [n]P *)
  Definition pmul (n : nat) (P : point p) : point p := Nat.iter n (fun R => padd R P) Inf.
End Curve.
