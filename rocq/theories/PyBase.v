(** Base vocabulary of the model: python exceptions as values, text as [list ascii]. *)
From Coq Require Export List Ascii String ZArith Lia Bool Arith.
Export ListNotations.
Open Scope list_scope.

(** A python [str]; characters outside ASCII are not modelled. *)
Definition text := list ascii.

(** String literals for texts. *)
Definition T (s : string) : text := list_ascii_of_string s.

(** The python exception classes that the modelled code raises (or that the interpreter raises
    while running it). *)
Inductive exn :=
  ValueError | TypeError | KeyError | IndexError | AttributeError | IOError
| ZeroDivisionError | NotImplementedError | ParseError | StopIteration | GenericException.

(** Result of running python code: a value, or an exception. *)
Inductive res (A : Type) := Ok (a : A) | Err (e : exn).
Arguments Ok {A} a.
Arguments Err {A} e.

Definition bind {A B} (r : res A) (f : A -> res B) : res B :=
  match r with Ok a => f a | Err e => Err e end.
Notation "'do' x <- r ; k" := (bind r (fun x => k))
  (at level 200, x pattern, r at level 100, k at level 200).

Lemma ok_inj {A} (a b : A) : Ok a = Ok b -> a = b.
Proof. congruence. Qed.

Definition is_ok {A} (r : res A) : bool := match r with Ok _ => true | Err _ => false end.

Fixpoint mapM {A B} (f : A -> res B) (l : list A) : res (list B) :=
  match l with
  | [] => Ok []
  | x :: xs => do y <- f x; do ys <- mapM f xs; Ok (y :: ys)
  end.

(** ** Characters and texts *)

Definition ceq (a b : ascii) : bool := Ascii.eqb a b.
Arguments ceq : simpl never.

Fixpoint teq (a b : text) : bool :=
  match a, b with
  | [], [] => true
  | x :: a', y :: b' => ceq x y && teq a' b'
  | _, _ => false
  end.

Lemma ceq_spec a b : reflect (a = b) (ceq a b).
Proof. apply Ascii.eqb_spec. Qed.

Lemma ceq_refl a : ceq a a = true.
Proof. apply Ascii.eqb_refl. Qed.

Lemma ceq_true a b : ceq a b = true <-> a = b.
Proof. apply Ascii.eqb_eq. Qed.

Lemma ceq_false a b : ceq a b = false <-> a <> b.
Proof. apply Ascii.eqb_neq. Qed.

Lemma teq_refl a : teq a a = true.
Proof. induction a; simpl; [auto|]. now rewrite ceq_refl. Qed.

Lemma teq_true a b : teq a b = true <-> a = b.
Proof.
  revert b; induction a as [|x a IH]; intros [|y b]; simpl; split; intros H; try easy.
  - apply andb_prop in H as [H1 H2]. apply ceq_true in H1. apply IH in H2. now subst.
  - inversion H; subst. rewrite ceq_refl. now apply IH.
Qed.

Lemma teq_false a b : teq a b = false <-> a <> b.
Proof.
  split; intros H.
  - intros E. apply teq_true in E. congruence.
  - destruct (teq a b) eqn:E; [|auto]. apply teq_true in E. contradiction.
Qed.

(** [c in s] for a character. *)
Definition char_in (c : ascii) (s : text) : bool := existsb (ceq c) s.

Lemma char_in_true c s : char_in c s = true <-> In c s.
Proof.
  unfold char_in. rewrite existsb_exists. split.
  - intros [x [Hx E]]. apply ceq_true in E. now subst.
  - intros H. exists c. split; [auto|apply ceq_refl].
Qed.

Lemma char_in_false c s : char_in c s = false <-> ~ In c s.
Proof.
  split; intros H.
  - intros Hi. apply char_in_true in Hi. congruence.
  - destruct (char_in c s) eqn:E; [|auto]. apply char_in_true in E. contradiction.
Qed.

Lemma char_in_app c a b : char_in c (a ++ b) = char_in c a || char_in c b.
Proof. unfold char_in. apply existsb_app. Qed.

(** Decimal digits: python [str.isdigit] / [string.digits] on ASCII. *)
Definition is_digit (c : ascii) : bool :=
  (48 <=? nat_of_ascii c)%nat && (nat_of_ascii c <=? 57)%nat.

Definition digit_val (c : ascii) : Z := Z.of_nat (nat_of_ascii c) - 48.
Definition digit_chr (d : Z) : ascii := ascii_of_nat (Z.to_nat (d + 48)).

Lemma digit_val_range c : is_digit c = true -> (0 <= digit_val c <= 9)%Z.
Proof.
  unfold is_digit, digit_val. intros H. apply andb_prop in H as [H1 H2].
  apply Nat.leb_le in H1, H2. lia.
Qed.

Lemma digit_chr_val d : (0 <= d <= 9)%Z -> digit_val (digit_chr d) = d.
Proof.
  intros H. unfold digit_val, digit_chr. rewrite nat_ascii_embedding; lia.
Qed.

Lemma digit_chr_is d : (0 <= d <= 9)%Z -> is_digit (digit_chr d) = true.
Proof.
  intros H. unfold is_digit, digit_chr. rewrite nat_ascii_embedding by lia.
  apply andb_true_intro. split; apply Nat.leb_le; lia.
Qed.

Lemma digit_val_chr c : is_digit c = true -> digit_chr (digit_val c) = c.
Proof.
  intros H. unfold digit_chr, digit_val.
  unfold is_digit in H. apply andb_prop in H as [H1 H2]. apply Nat.leb_le in H1, H2.
  replace (Z.to_nat _) with (nat_of_ascii c) by lia. apply ascii_nat_embedding.
Qed.

Definition all_digits (s : text) : bool := forallb is_digit s.

(** Value of a digit string read as a decimal integer (python [int(s)] on digit strings). *)
Definition dval (s : text) : Z := fold_left (fun a c => 10 * a + digit_val c)%Z s 0%Z.

Lemma dval_fold s : forall a, fold_left (fun a c => 10 * a + digit_val c)%Z s a
  = (a * 10 ^ Z.of_nat (List.length s) + dval s)%Z.
Proof.
  unfold dval. induction s as [|c s IH]; intros a; cbn [fold_left List.length].
  - rewrite Z.pow_0_r. lia.
  - rewrite IH, (IH (10 * 0 + digit_val c)%Z).
    rewrite Nat2Z.inj_succ, Z.pow_succ_r by lia. lia.
Qed.

Lemma dval_app a b : dval (a ++ b) = (dval a * 10 ^ Z.of_nat (List.length b) + dval b)%Z.
Proof.
  unfold dval at 1. rewrite fold_left_app. fold (dval a). apply dval_fold.
Qed.

Lemma dval_cons c s : dval (c :: s) = (digit_val c * 10 ^ Z.of_nat (List.length s) + dval s)%Z.
Proof. change (c :: s) with ([c] ++ s). rewrite dval_app. unfold dval at 1. simpl fold_left. f_equal. Qed.

Lemma dval_nonneg s : all_digits s = true -> (0 <= dval s)%Z.
Proof.
  induction s as [|c s IH]; [easy|]. cbn [all_digits forallb]. intros H.
  apply andb_prop in H as [H1 H2]. rewrite dval_cons. apply digit_val_range in H1.
  specialize (IH H2). nia.
Qed.

Lemma dval_bound s : all_digits s = true -> (dval s < 10 ^ Z.of_nat (List.length s))%Z.
Proof.
  induction s as [|c s IH]; [easy|]. cbn [all_digits forallb]. intros H.
  apply andb_prop in H as [H1 H2]. rewrite dval_cons. apply digit_val_range in H1.
  specialize (IH H2). cbn [List.length]. rewrite Nat2Z.inj_succ, Z.pow_succ_r by lia. nia.
Qed.

Lemma all_digits_app a b : all_digits (a ++ b) = all_digits a && all_digits b.
Proof. apply forallb_app. Qed.

Definition zeros (n : nat) : text := repeat "0"%char n.

Lemma zeros_digits n : all_digits (zeros n) = true.
Proof. induction n; [easy|]. simpl. exact IHn. Qed.

Lemma zeros_length n : List.length (zeros n) = n.
Proof. apply repeat_length. Qed.

Lemma dval_zeros n : dval (zeros n) = 0%Z.
Proof.
  induction n; [easy|]. unfold zeros in *. cbn [repeat]. rewrite dval_cons, IHn. reflexivity.
Qed.

(** ** Decimal digits of non-negative integers *)

(** The [k] low decimal digits of [n], most significant first. *)
Fixpoint dig (k : nat) (n : Z) : text :=
  match k with
  | O => []
  | S k' => dig k' (n / 10) ++ [digit_chr (n mod 10)]
  end.

Lemma dig_length k : forall n, List.length (dig k n) = k.
Proof. induction k; intros n; simpl; [auto|]. rewrite app_length, IHk. simpl. lia. Qed.

Lemma mod10 n : (0 <= n mod 10 <= 9)%Z.
Proof. pose proof (Z.mod_pos_bound n 10). lia. Qed.

Lemma dig_digits k : forall n, all_digits (dig k n) = true.
Proof.
  induction k; intros n; simpl; [auto|]. rewrite all_digits_app, IHk. simpl.
  now rewrite digit_chr_is by apply mod10.
Qed.

Lemma dval_dig k : forall n, dval (dig k n) = (n mod 10 ^ Z.of_nat k)%Z.
Proof.
  induction k; intros n.
  - simpl. rewrite Z.mod_1_r. reflexivity.
  - cbn [dig]. rewrite dval_app, IHk. cbn [List.length].
    unfold dval. cbn [fold_left]. rewrite digit_chr_val by apply mod10.
    change (10 ^ Z.of_nat 1)%Z with 10%Z.
    replace (10 ^ Z.of_nat (S k))%Z with (10 * 10 ^ Z.of_nat k)%Z
      by (rewrite Nat2Z.inj_succ, Z.pow_succ_r by lia; reflexivity).
    assert (H : (0 < 10 ^ Z.of_nat k)%Z) by (apply Z.pow_pos_nonneg; lia).
    rewrite (Z.rem_mul_r n 10 (10 ^ Z.of_nat k)) by lia. lia.
Qed.

Lemma dig_dval s : all_digits s = true -> dig (List.length s) (dval s) = s.
Proof.
  induction s as [|c s IH] using rev_ind; [easy|].
  rewrite all_digits_app. intros H. apply andb_prop in H as [H1 H2].
  simpl in H2. rewrite andb_true_r in H2.
  rewrite app_length. cbn [List.length]. rewrite Nat.add_1_r. cbn [dig].
  rewrite dval_app. cbn [List.length]. change (10 ^ Z.of_nat 1)%Z with 10%Z.
  replace (dval [c]) with (digit_val c) by (unfold dval; simpl; lia).
  pose proof (digit_val_range c H2) as R.
  replace ((dval s * 10 + digit_val c) / 10)%Z with (dval s)
    by (rewrite Z.add_comm, Z.div_add, Z.div_small by lia; lia).
  replace ((dval s * 10 + digit_val c) mod 10)%Z with (digit_val c)
    by (rewrite Z.add_comm, Z.mod_add, Z.mod_small by lia; lia).
  now rewrite IH, digit_val_chr.
Qed.

Lemma dig_split a b n : dig (a + b) n = dig a (n / 10 ^ Z.of_nat b) ++ dig b n.
Proof.
  revert n; induction b; intros n.
  - rewrite Nat.add_0_r. simpl. rewrite Z.div_1_r, app_nil_r. reflexivity.
  - rewrite Nat.add_succ_r. cbn [dig]. rewrite IHb, app_assoc.
    rewrite Nat2Z.inj_succ, Z.pow_succ_r, Z.div_div by (try apply Z.pow_pos_nonneg; lia).
    reflexivity.
Qed.

Lemma dig_small a b n : (0 <= n < 10 ^ Z.of_nat b)%Z -> dig (a + b) n = zeros a ++ dig b n.
Proof.
  intros H. rewrite dig_split, Z.div_small by lia. f_equal.
  clear. induction a; [easy|]. simpl. rewrite Z.div_0_l, IHa by lia.
  change (zeros a ++ ["0"%char] = zeros (S a)).
  unfold zeros. rewrite <- (repeat_cons a). reflexivity.
Qed.

(** Number of decimal digits of [n >= 0] (at least 1). *)
Fixpoint ndig_fuel (f : nat) (n : Z) : nat :=
  match f with
  | O => 1
  | S f' => if (n <? 10)%Z then 1 else S (ndig_fuel f' (n / 10))
  end.
Definition ndig (n : Z) : nat := ndig_fuel (Z.to_nat (Z.log2 n)) n.

Lemma ndig_fuel_spec f : forall n, (0 <= n < 2 ^ Z.of_nat (S f))%Z ->
  (n < 10 ^ Z.of_nat (ndig_fuel f n))%Z /\
  ((10 <= n)%Z -> (10 ^ (Z.of_nat (ndig_fuel f n) - 1) <= n)%Z).
Proof.
  induction f as [|f IH]; intros n H; cbn [ndig_fuel].
  - change (2 ^ Z.of_nat 1)%Z with 2%Z in H. change (10 ^ Z.of_nat 1)%Z with 10%Z. lia.
  - destruct (Z.ltb_spec n 10) as [L|L].
    + change (10 ^ Z.of_nat 1)%Z with 10%Z. lia.
    + assert (Hd : (0 <= n / 10 < 2 ^ Z.of_nat (S f))%Z).
      { split; [apply Z.div_pos; lia|]. apply Z.div_lt_upper_bound; [lia|].
        rewrite Nat2Z.inj_succ, Z.pow_succ_r in H by lia.
        assert (0 < 2 ^ Z.of_nat (S f))%Z by (apply Z.pow_pos_nonneg; lia). lia. }
      specialize (IH _ Hd) as [I1 I2].
      set (m := ndig_fuel f (n / 10)) in *.
      rewrite !Nat2Z.inj_succ, Z.pow_succ_r by lia.
      pose proof (Z.div_mod n 10 ltac:(lia)) as DM. pose proof (mod10 n) as M.
      split; [nia|]. intros _.
      replace (Z.succ (Z.of_nat m) - 1)%Z with (Z.of_nat m) by lia.
      destruct (Z.ltb_spec (n / 10) 10) as [L2|L2].
      * assert (m = 1%nat) as ->.
        { unfold m. destruct f; simpl; [auto|]. destruct (Z.ltb_spec (n / 10) 10); [auto|lia]. }
        change (10 ^ Z.of_nat 1)%Z with 10%Z. lia.
      * specialize (I2 ltac:(lia)).
        assert (Hm : (1 <= m)%nat) by (unfold m; destruct f; simpl; [lia|destruct (_ <? _)%Z; lia]).
        replace (Z.of_nat m) with (Z.succ (Z.of_nat m - 1))%Z by lia.
        rewrite Z.pow_succ_r by lia. lia.
Qed.

Lemma ndig_bound n : (0 <= n)%Z -> (n < 10 ^ Z.of_nat (ndig n))%Z.
Proof.
  intros H. apply ndig_fuel_spec. split; [auto|].
  destruct (Z.eq_dec n 0) as [->|N]; [now vm_compute|].
  rewrite Nat2Z.inj_succ, Z2Nat.id by apply Z.log2_nonneg.
  apply Z.log2_spec. lia.
Qed.

Lemma ndig_low n : (10 <= n)%Z -> (10 ^ (Z.of_nat (ndig n) - 1) <= n)%Z.
Proof.
  intros H. apply ndig_fuel_spec; [|auto].
  rewrite Nat2Z.inj_succ, Z2Nat.id by apply Z.log2_nonneg.
  split; [lia|]. apply Z.log2_spec. lia.
Qed.

Lemma ndig_pos n : (1 <= ndig n)%nat.
Proof. unfold ndig. destruct (Z.to_nat _); simpl; [lia|]. destruct (_ <? _)%Z; lia. Qed.

Lemma ndig_le n k : (0 <= n < 10 ^ Z.of_nat k)%Z -> (1 <= k)%nat -> (ndig n <= k)%nat.
Proof.
  intros H K. destruct (Z.ltb_spec n 10) as [L|L].
  - assert (ndig n = 1%nat) as ->; [|lia].
    unfold ndig. destruct (Z.to_nat _); simpl; [auto|]. destruct (Z.ltb_spec n 10); lia.
  - apply ndig_low in L.
    assert (Z.of_nat (ndig n) - 1 < Z.of_nat k)%Z; [|lia].
    apply (Z.pow_lt_mono_r_iff 10); lia.
Qed.

(** python [str(n)] / [%d] for a non-negative integer. *)
Definition show_nat (n : Z) : text := dig (ndig n) n.

(** python [str(n)] for an integer. *)
Definition show_int (n : Z) : text := if (n <? 0)%Z then "-"%char :: show_nat (- n) else show_nat n.

Lemma show_nat_digits n : all_digits (show_nat n) = true.
Proof. apply dig_digits. Qed.

Lemma dval_show_nat n : (0 <= n)%Z -> dval (show_nat n) = n.
Proof.
  intros H. unfold show_nat. rewrite dval_dig, Z.mod_small; [auto|].
  split; [auto|]. now apply ndig_bound.
Qed.

Lemma show_nat_nonempty n : show_nat n <> [].
Proof.
  unfold show_nat. intros H. apply (f_equal (@List.length _)) in H. rewrite dig_length in H.
  pose proof (ndig_pos n). simpl in H. lia.
Qed.

(** ** python slices and strip/split helpers *)

(** [s.lstrip(c)] for a one-character argument. *)
Fixpoint lstrip (c : ascii) (s : text) : text :=
  match s with
  | x :: s' => if ceq x c then lstrip c s' else s
  | [] => []
  end.

(** [s.lstrip(chars)] / [s.rstrip(chars)] / [s.strip(chars)] for a set of characters. *)
Fixpoint lstrip_p (p : ascii -> bool) (s : text) : text :=
  match s with
  | x :: s' => if p x then lstrip_p p s' else s
  | [] => []
  end.
Definition rstrip_p (p : ascii -> bool) (s : text) : text := rev (lstrip_p p (rev s)).
Definition strip_p (p : ascii -> bool) (s : text) : text := rstrip_p p (lstrip_p p s).

(** python's whitespace ([str.strip()] without argument) on ASCII. *)
Definition is_space (c : ascii) : bool :=
  let n := nat_of_ascii c in ((9 <=? n) && (n <=? 13) || (28 <=? n) && (n <=? 32))%nat.
Definition strip (s : text) : text := strip_p is_space s.

(** [s.split(c)] for a one-character separator: never empty. *)
Fixpoint split_on (c : ascii) (s : text) : list text :=
  match s with
  | [] => [[]]
  | x :: s' =>
      match split_on c s' with
      | w :: ws => if ceq x c then [] :: w :: ws else (x :: w) :: ws
      | [] => [[]]  (* unreachable: split_on is never empty *)
      end
  end.

(** [s.startswith(p)]. *)
Fixpoint starts_with (p s : text) : bool :=
  match p, s with
  | [], _ => true
  | x :: p', y :: s' => ceq x y && starts_with p' s'
  | _ :: _, [] => false
  end.

(** [p in s] for strings. *)
Fixpoint text_in (p s : text) : bool :=
  starts_with p s || match s with [] => false | _ :: s' => text_in p s' end.

Definition nl : ascii := ascii_of_nat 10.
Definition cr : ascii := ascii_of_nat 13.

Definition rmap {A B} (f : A -> B) (r : res A) : res B :=
  match r with Ok a => Ok (f a) | Err e => Err e end.
