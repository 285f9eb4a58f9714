(** The values of a type. *)
From Coq Require Import QArith ZArith List Bool.
From Verif Require Import FloatPrec_Model MakeInput_Model.
Import ListNotations.
Open Scope Z_scope.

(** A float of Python: rounding it to a double changes nothing *)
Definition a_double (f : fp) : Prop :=
  match f with FFin neg mag => of_Q neg (fval neg mag) = FFin neg mag | _ => True end.

Section Keys.
Variable same : value -> value -> bool.
Fixpoint has (t : ty) (v : value) : Prop :=
  match t with
  | TInt => exists z, v = VInt z
  | TBool => v = VBool true \/ v = VBool false
  | TFloat => exists f, v = VFloat f /\ a_double f
  | TRange => exists start stop step, v = VRange start stop step /\ step <> 0
  | TTuple ts => exists vs, v = VTuple vs /\
      (fix each (ts : list ty) (vs : list value) : Prop :=
         match ts, vs with
         | [], [] => True
         | t :: ts, v :: vs => has t v /\ each ts vs
         | _, _ => False
         end) ts vs
  | TUniform t => exists vs, v = VTuple vs /\ forall x, In x vs -> has t x
  | TUnion ts => (fix some (ts : list ty) : Prop := match ts with [] => False | t :: ts => has t v \/ some ts end) ts
  | TDict k w => exists kvs, v = VDict kvs /\ (forall x y, In (x, y) kvs -> has k x /\ has w y) /\
      ForallOrdPairs (fun a b => same a b = false) (map fst kvs)
  end.
End Keys.
(** What the solver gives for floats is a double *)
Definition fair (ds : list draw) : Prop :=
  forall d, In d ds -> match d with DDouble f => a_double f | DReal q => a_double (of_real q) | _ => True end.
