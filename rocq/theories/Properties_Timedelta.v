(** C56: timedelta arithmetic is exact arithmetic on microseconds. *)
From Coq Require Import ZArith List Bool Lia ZifyBool.
From Verif Require Import Py Calendar_Model Timedelta_Model Calendar_Spec Timedelta_Spec Calendar_Proofs Timedelta_Proofs.
Import ListNotations.
Open Scope Z_scope.

(** the values *)
Theorem timedelta_construction : forall days seconds us ms minutes hours weeks,
  gives (td_new days seconds us ms minutes hours weeks)
        ((days + 7 * weeks) * us_per_day + (seconds + 60 * minutes + 3600 * hours) * 1000000 + us + 1000 * ms).
Proof. exact td_new_gives. Qed.
Print Assumptions timedelta_construction.
Example x_construction :
  td_new 0 0 (-1) 0 0 0 0 = Ok (mkTd (-1) 86399 999999) /\ td_new 1 90000 0 1500 (-1) 2 1 = Ok (mkTd 9 10741 500000) /\
  td_new 999999999 86399 1000000 0 0 0 0 = Err OverflowError.
Proof. vm_compute. auto. Qed.

(** C56 in full would be: for timedeltas of [x] and [y] microseconds, at least one of them made
    under analysis, each operation gives what the same operation on [x] and [y] gives.
    Proved: unless the left operand was made before the analysis and the operation is a
    subtraction whose right operand has no negative, or a division.  The refutations below show
    these exceptions are real. *)
Theorem timedelta_operations_partial : forall creal o ka kb a b x y,
  stands_for a x -> stands_for b y ->
  ka = TCh \/ (kb = TCh /\ match o with BAdd | BCmp _ => True | BSub => us_min <= - y | _ => False end) ->
  s_bop o x y (binop creal o ka kb a b).
Proof.
  intros creal o ka kb a b x y A B H. destruct ka; [apply direct_ok; assumption|].
  destruct H as [H|[-> H]]; [discriminate|]. apply reflected_ok; assumption.
Qed.
Print Assumptions timedelta_operations_partial.
Definition td_max := mkTd 999999999 86399 999999.
Definition day := mkTd 1 0 0.
Definition half := mkTd (-1) 43200 0.
Example x_operations :
  stands_for day us_per_day /\ stands_for half (-43200000000) /\
  binop (fun _ _ _ => Err TypeError) BSub TReal TCh day half = Ok (VTd (mkTd 1 43200 0)) /\
  binop (fun _ _ _ => Err TypeError) BDivmod TCh TReal half day = Ok (VPair (-1) (mkTd 0 43200 0)) /\
  binop (fun _ _ _ => Err TypeError) (BCmp RLt) TReal TCh half day = Ok (VBool true) /\
  binop (fun _ _ _ => Err TypeError) BAdd TCh TCh td_max day = Err OverflowError /\
  binop (fun _ _ _ => Err TypeError) BMod TCh TCh day (mkTd 0 0 0) = Err ZeroDivisionError.
Proof. vm_compute. repeat split; discriminate. Qed.

(** A timedelta made before the analysis minus an equal one made under it must be zero; for
    [timedelta.max] it is an OverflowError. *)
Theorem timedelta_subtraction_refuted : exists a b x y,
  stands_for a x /\ stands_for b y /\ forall creal, ~ s_bop BSub x y (binop creal BSub TReal TCh a b).
Proof.
  exists td_max, td_max, us_max, us_max. split; [vm_compute; repeat split; discriminate|]. split; [vm_compute; repeat split; discriminate|].
  intros creal (t & E & [[_ (r & -> & _)]|[N _]]); [vm_compute in E; discriminate|]. apply N. vm_compute. split; discriminate.
Qed.
Print Assumptions timedelta_subtraction_refuted.
(** A timedelta made before the analysis cannot be divided by one made under it. *)
Theorem timedelta_division_refuted : exists a b x y,
  stands_for a x /\ stands_for b y /\ y <> 0 /\
  forall creal, ~ s_bop BFloorDiv x y (binop creal BFloorDiv TReal TCh a b) /\ ~ s_bop BMod x y (binop creal BMod TReal TCh a b)
     /\ ~ s_bop BDivmod x y (binop creal BDivmod TReal TCh a b).
Proof.
  exists day, half, us_per_day, (-43200000000). split; [vm_compute; repeat split; discriminate|]. split; [vm_compute; repeat split; discriminate|].
  split; [discriminate|]. intros creal. split; [|split].
  - cbn. discriminate.
  - intros (t & E & _). discriminate.
  - intros (t & E & _). discriminate.
Qed.
Print Assumptions timedelta_division_refuted.
(** A timedelta minus a date must be a TypeError; it is a date. *)
Theorem timedelta_minus_date_refuted : exists t n, 1 <= n <= MAXORDINAL /\ m_sub_date t n <> Err TypeError.
Proof. exists day, 738944. split; [vm_compute; split; discriminate|]. vm_compute. discriminate. Qed.
Print Assumptions timedelta_minus_date_refuted.

(** Operations with one timedelta and numbers *)
Theorem timedelta_scaling : forall a x, stands_for a x ->
  (forall k, gives (m_mul a k) (x * k)) /\
  (forall k, if k =? 0 then m_floordivi a k = Err ZeroDivisionError else gives (m_floordivi a k) (x / k)) /\
  (forall k, if k =? 0 then m_divi a k = Err ZeroDivisionError else exists q, rounds_to x k q /\ gives (m_divi a k) q) /\
  (forall n d, 0 < d -> exists q, rounds_to (x * n) d q /\ gives (m_mulf a n d) q) /\
  (forall n d, 0 < d -> if n =? 0 then m_divf a n d = Err ZeroDivisionError else exists q, rounds_to (x * d) n q /\ gives (m_divf a n d) q) /\
  gives (m_neg a) (- x) /\ gives (m_pos a) x /\ gives (m_abs a) (Z.abs x) /\ m_bool a = negb (x =? 0).
Proof.
  intros a x A. split; [intros k; apply mul_gives, A|]. pose proof (stands_us _ _ A) as E.
  assert (R : forall p q, q <> 0 -> exists z, rounds_to p q z /\ gives (do z <- divide_and_round p q; td3 0 0 z) z).
  { intros p q N. destruct (rounding p q N) as (z & -> & R). exists z. split; [exact R|]. cbn [bind]. apply td3_gives. lia. }
  split; [|split; [|split; [|split]]].
  - intros k. unfold m_floordivi. destruct (Z.eqb_spec k 0); [reflexivity|]. apply td3_gives. rewrite E. lia.
  - intros k. unfold m_divi. rewrite E. destruct (Z.eqb_spec k 0) as [->|N]; [reflexivity|]. apply R, N.
  - intros n d P. unfold m_mulf. rewrite E. apply R. lia.
  - intros n d P. unfold m_divf. rewrite E. destruct (Z.eqb_spec n 0) as [->|N]; [reflexivity|]. rewrite (Z.mul_comm d x). apply R, N.
  - split; [apply neg_gives, A|]. split; [left; split; [apply A | unfold m_pos; eauto]|]. split; [apply abs_gives, A | apply bool_ok, A].
Qed.
Print Assumptions timedelta_scaling.
Example x_scaling : stands_for half (-43200000000) /\ m_divi (mkTd 0 0 5) 2 = Ok (mkTd 0 0 2) /\ m_divi (mkTd 0 0 7) 2 = Ok (mkTd 0 0 4)
  /\ m_divi (mkTd 0 0 7) (-2) = Ok (mkTd (-1) 86399 999996) /\ m_mulf half 3 2 = Ok (mkTd (-1) 21600 0) /\ m_neg td_max = Err OverflowError.
Proof. vm_compute. repeat split; discriminate. Qed.
(** rounding leaves no choice *)
Theorem rounding_is_unique : forall a b q q', b <> 0 -> rounds_to a b q -> rounds_to a b q' -> q = q'.
Proof. exact rounds_unique. Qed.
Print Assumptions rounding_is_unique.
Example x_rounding : rounds_to 5 2 2 /\ ~ rounds_to 5 2 3 /\ rounds_to (-5) 3 (-2).
Proof. unfold rounds_to. repeat split; cbn; lia. Qed.

(** Every timedelta is the value of a symbolic timedelta, and each such value is a timedelta. *)
Theorem symbolic_timedeltas_are_all_timedeltas :
  (forall us, us_min <= us <= us_max -> exists dd ss u t, symbolic_td dd ss u = Some t /\ stands_for t us) /\
  (forall dd ss u t, symbolic_td dd ss u = Some t -> exists us, stands_for t us) /\
  (forall t t' us, stands_for t us -> stands_for t' us -> t = t').
Proof.
  split; [|split; [|exact stands_inj]].
  - intros us H. destruct (gives_in _ _ (td3_gives 0 0 us us ltac:(lia)) H) as ([dd ss u] & _ & S1).
    exists dd, ss, u, (mkTd dd ss u). split; [|exact S1]. unfold symbolic_td. unfold stands_for, us_min, us_max, us_per_day in S1. cbn [days seconds microseconds] in S1.
    replace (_ && (u <=? 999999)) with true by lia. reflexivity.
  - intros dd ss u t E. unfold symbolic_td in E. destruct (_ && (u <=? 999999)) eqn:C in E; [|discriminate]. injection E as <-.
    exists (dd * us_per_day + ss * 1000000 + u). unfold stands_for, us_min, us_max, us_per_day. cbn [days seconds microseconds]. lia.
Qed.
Print Assumptions symbolic_timedeltas_are_all_timedeltas.
Example x_symbolic_td : symbolic_td (-999999999) 0 0 = Some (mkTd (-999999999) 0 0) /\ symbolic_td 1000000000 0 0 = None.
Proof. vm_compute. auto. Qed.
