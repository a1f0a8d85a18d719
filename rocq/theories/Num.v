(** * Numbers, errors and small list utilities shared by every model file.

    Modelling convention (see DESIGN.md, "Arithmetic"): IEEE float64 values are
    idealised as exact reals extended with the three IEEE special values, so
    that NaN/inf flow through comparisons, masks and filters is modelled, but
    rounding is not.  Rounding is modelled separately (file MFloat.v) where a
    property is about it. *)
From Coq Require Export Reals Lra Lia List ZArith Bool Psatz.
Export ListNotations.
Open Scope R_scope.

(** ** Exceptions as values (python exceptions raised by the modelled code). *)
Inductive exn :=
| AssertionError | ValueError | IndexError | TypeError | RuntimeError
| KeyError | ZeroDivisionError | LinAlgError | QhullError | FileNotFoundError | EOFError.

Inductive result (A : Type) :=
| Ok (a : A)
| Err (e : exn).
Arguments Ok {A} _.
Arguments Err {A} _.

Definition bind {A B} (x : result A) (f : A -> result B) : result B :=
  match x with Ok a => f a | Err e => Err e end.
Notation "'let*' x ':=' m 'in' k" := (bind m (fun x => k))
  (at level 200, x pattern, m at level 100, k at level 200).

Definition assert_ (b : bool) : result unit :=
  if b then Ok tt else Err AssertionError.

(** ** Real comparisons as booleans. *)
Definition Rltb (x y : R) : bool := if Rlt_dec x y then true else false.
Definition Rleb (x y : R) : bool := if Rle_dec x y then true else false.
Definition Reqb (x y : R) : bool := if Req_EM_T x y then true else false.

Lemma Rltb_true x y : Rltb x y = true <-> x < y.
Proof. unfold Rltb; destruct (Rlt_dec x y); split; intros; auto; discriminate. Qed.
Lemma Rltb_false x y : Rltb x y = false <-> y <= x.
Proof. unfold Rltb; destruct (Rlt_dec x y); split; intros; auto; try discriminate; lra. Qed.
Lemma Rleb_true x y : Rleb x y = true <-> x <= y.
Proof. unfold Rleb; destruct (Rle_dec x y); split; intros; auto; discriminate. Qed.
Lemma Rleb_false x y : Rleb x y = false <-> y < x.
Proof. unfold Rleb; destruct (Rle_dec x y); split; intros; auto; try discriminate; lra. Qed.
Lemma Reqb_true x y : Reqb x y = true <-> x = y.
Proof. unfold Reqb; destruct (Req_EM_T x y); split; intros; auto; discriminate. Qed.
Lemma Reqb_false x y : Reqb x y = false <-> x <> y.
Proof. unfold Reqb; destruct (Req_EM_T x y); split; intros; auto; try discriminate; contradiction. Qed.

(** ** Extended numbers: exact reals plus the IEEE special values. *)
Inductive num := Fin (r : R) | PInf | NInf | NaN.

Definition is_finite (x : num) : bool := match x with Fin _ => true | _ => false end.

(** IEEE-754 addition/negation/subtraction on special values. *)
Definition nneg (x : num) : num :=
  match x with Fin r => Fin (- r) | PInf => NInf | NInf => PInf | NaN => NaN end.
Definition nadd (x y : num) : num :=
  match x, y with
  | NaN, _ | _, NaN => NaN
  | Fin a, Fin b => Fin (a + b)
  | PInf, NInf | NInf, PInf => NaN
  | PInf, _ | _, PInf => PInf
  | NInf, _ | _, NInf => NInf
  end.
Definition nsub (x y : num) : num := nadd x (nneg y).

(** Multiplication: inf * 0 = NaN, sign rule otherwise. *)
Definition nsign_inf (pos : bool) : num := if pos then PInf else NInf.
Definition nmul (x y : num) : num :=
  match x, y with
  | NaN, _ | _, NaN => NaN
  | Fin a, Fin b => Fin (a * b)
  | Fin a, PInf | PInf, Fin a =>
      if Req_EM_T a 0 then NaN else nsign_inf (Rltb 0 a)
  | Fin a, NInf | NInf, Fin a =>
      if Req_EM_T a 0 then NaN else nsign_inf (Rltb a 0)
  | PInf, PInf | NInf, NInf => PInf
  | PInf, NInf | NInf, PInf => NInf
  end.

(** Division.  The exact-real idealisation has no signed zero, so the sign of
    the infinity produced by x/0 (x<>0) is the parameter [zneg] ("the zero was
    -0.0"); every theorem about it quantifies over [zneg]. 0/0 = NaN. *)
Definition ndiv (zneg : bool) (x y : num) : num :=
  match x, y with
  | NaN, _ | _, NaN => NaN
  | Fin a, Fin b =>
      if Req_EM_T b 0 then
        if Req_EM_T a 0 then NaN else nsign_inf (xorb (Rltb 0 a) zneg)
      else Fin (a / b)
  | Fin _, _ => Fin 0
  | PInf, Fin b => if Req_EM_T b 0 then nsign_inf (negb zneg) else nsign_inf (Rltb 0 b)
  | NInf, Fin b => if Req_EM_T b 0 then nsign_inf zneg else nsign_inf (Rltb b 0)
  | _, _ => NaN
  end.

(** Comparisons: any comparison with NaN is false. *)
Definition nlt (x y : num) : bool :=
  match x, y with
  | NaN, _ | _, NaN => false
  | Fin a, Fin b => Rltb a b
  | NInf, NInf => false | NInf, _ => true
  | _, NInf => false
  | PInf, _ => false | _, PInf => true
  end.
Definition nle (x y : num) : bool :=
  match x, y with
  | NaN, _ | _, NaN => false
  | Fin a, Fin b => Rleb a b
  | NInf, _ => true
  | _, NInf => false
  | _, PInf => true
  | PInf, _ => false
  end.
Definition neq0 (x : num) : bool := match x with Fin a => Reqb a 0 | _ => false end.

(** Square root and arctan as torch defines them on special values. *)
Definition nsqrt (x : num) : num :=
  match x with
  | Fin a => if Rlt_dec a 0 then NaN else Fin (sqrt a)
  | PInf => PInf | _ => NaN
  end.
Definition natan (x : num) : num :=
  match x with
  | Fin a => Fin (atan a) | PInf => Fin (PI/2) | NInf => Fin (-(PI/2)) | NaN => NaN
  end.

Definition fin_of (x : num) : option R := match x with Fin r => Some r | _ => None end.

(** ** Lists. *)
Fixpoint mapi_from {A B} (i : nat) (f : nat -> A -> B) (l : list A) : list B :=
  match l with [] => [] | x :: xs => f i x :: mapi_from (S i) f xs end.
Definition mapi {A B} (f : nat -> A -> B) (l : list A) : list B := mapi_from 0 f l.

Lemma mapi_from_length {A B} (f : nat -> A -> B) l : forall i, length (mapi_from i f l) = length l.
Proof. induction l; simpl; intros; auto. Qed.
Lemma mapi_length {A B} (f : nat -> A -> B) l : length (mapi f l) = length l.
Proof. apply mapi_from_length. Qed.

Lemma mapi_from_nth_error {A B} (f : nat -> A -> B) l : forall i k,
  nth_error (mapi_from i f l) k = option_map (f (i + k)%nat) (nth_error l k).
Proof.
  induction l as [|x xs IH]; intros i [|k]; simpl; auto.
  - now rewrite Nat.add_0_r.
  - rewrite IH. now rewrite Nat.add_succ_r.
Qed.
Lemma mapi_nth_error {A B} (f : nat -> A -> B) l k :
  nth_error (mapi f l) k = option_map (f k) (nth_error l k).
Proof. unfold mapi. now rewrite mapi_from_nth_error. Qed.

Lemma in_mapi_from {A B} (f : nat -> A -> B) l y : forall i,
  In y (mapi_from i f l) <-> exists k x, nth_error l k = Some x /\ y = f (i + k)%nat x.
Proof.
  induction l as [|a l IH]; intros i; simpl.
  - split; [tauto|]. intros (k & x & H & _). destruct k; discriminate.
  - rewrite IH. split.
    + intros [<-|(k & x & Hk & ->)].
      * exists 0%nat, a; simpl; rewrite Nat.add_0_r; auto.
      * exists (S k), x; simpl; rewrite Nat.add_succ_r; auto.
    + intros ([|k] & x & Hk & ->); simpl in Hk.
      * left. inversion Hk; subst. now rewrite Nat.add_0_r.
      * right. exists k, x. rewrite Nat.add_succ_r. auto.
Qed.
Lemma in_mapi {A B} (f : nat -> A -> B) l y :
  In y (mapi f l) <-> exists k x, nth_error l k = Some x /\ y = f k x.
Proof. unfold mapi. rewrite in_mapi_from. simpl. tauto. Qed.

Definition sum_list (l : list R) : R := fold_right Rplus 0 l.
Arguments sum_list : simpl never.
Lemma sum_list_cons a l : sum_list (a :: l) = a + sum_list l.
Proof. reflexivity. Qed.
Lemma sum_list_nil : sum_list [] = 0.
Proof. reflexivity. Qed.
Lemma sum_list_app a b : sum_list (a ++ b) = sum_list a + sum_list b.
Proof. induction a; cbn [app]; rewrite ?sum_list_nil, ?sum_list_cons; lra. Qed.
Lemma sum_list_map_scal {A} c (f : A -> R) l :
  sum_list (map (fun x => c * f x) l) = c * sum_list (map f l).
Proof. induction l; simpl; [rewrite ?sum_list_nil; lra|]. rewrite !sum_list_cons, IHl. lra. Qed.
Lemma sum_list_nonneg l : (forall x, In x l -> 0 <= x) -> 0 <= sum_list l.
Proof.
  induction l; intros H; [rewrite sum_list_nil; lra|].
  rewrite sum_list_cons. assert (0 <= a) by (apply H; left; auto).
  assert (0 <= sum_list l) by (apply IHl; intros; apply H; right; auto). lra.
Qed.
Lemma sum_list_le_map {A} (f g : A -> R) l :
  (forall x, In x l -> f x <= g x) -> sum_list (map f l) <= sum_list (map g l).
Proof.
  induction l; intros H; simpl; [lra|]. rewrite !sum_list_cons.
  assert (f a <= g a) by (apply H; left; auto).
  assert (sum_list (map f l) <= sum_list (map g l)) by (apply IHl; intros; apply H; right; auto). lra.
Qed.
Lemma sum_list_plus_map {A} (f g : A -> R) l :
  sum_list (map (fun x => f x + g x) l) = sum_list (map f l) + sum_list (map g l).
Proof. induction l; simpl; [rewrite ?sum_list_nil; lra|]. rewrite !sum_list_cons, IHl. lra. Qed.
