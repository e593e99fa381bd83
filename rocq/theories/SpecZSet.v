(** Specification of sorted sets: a sequence of (score, member) pairs in increasing
    (score, member) order.  Nothing here refers to the model. *)
From Verif Require Import GoBase Float64 Float64Proofs.

(** a score interval with open or closed ends *)
Definition above_min (mn : float) (mo : bool) (sc : float) : bool := if mo then flt mn sc else fle mn sc.
Definition below_max (mx : float) (mxo : bool) (sc : float) : bool := if mxo then flt sc mx else fle sc mx.
Definition in_interval (mn : float) (mo : bool) (mx : float) (mxo : bool) (sc : float) : bool :=
  above_min mn mo sc && below_max mx mxo sc.

(** the members whose score lies in the interval, in order *)
Definition select_scores (mn : float) (mo : bool) (mx : float) (mxo : bool) (l : list zkey) : list zkey :=
  filter (λ k, in_interval mn mo mx mxo k.1 = true) l.

(** how many members have score exactly [f] *)
Definition at_score (f : float) (l : list zkey) : list zkey := filter (λ k, feq k.1 f = true) l.

(** put a (score, member) pair in its place *)
Fixpoint zplace (k : zkey) (l : list zkey) : list zkey :=
  match l with
  | [] => [k]
  | x :: r => if zlt x k then x :: zplace k r else k :: x :: r
  end.

(** drop a member, whatever its score *)
Definition zdrop (m : string) (l : list zkey) : list zkey := filter (λ k, k.2 ≠ m) l.
(** the score of a member *)
Definition zfind (m : string) (l : list zkey) : option float := fst <$> head (filter (λ k, k.2 = m) l).

(** how a member is shown in a range reply, with or without its score *)
Definition show_ent (ext : Ext) (ws : bool) (k : zkey) : list string :=
  k.2 :: (if ws then [format_float ext k.1] else []).

(** ** The intervals on which the code is right *)
(** lower end: -inf, or a number below every score, or a number that is the score of exactly one member *)
Definition good_min (mn : float) (l : list zkey) : Prop :=
  is_nan mn = false ∧
  (is_ninf mn = true ∨ is_inf mn = false ∧
   (Forall (λ k : zkey, flt mn k.1 = true) l ∨ length (at_score mn l) = 1%nat)).
(** upper end: +inf, or closed, or open at a score that at most one member has *)
Definition good_max (mx : float) (mxo : bool) (l : list zkey) : Prop :=
  is_nan mx = false ∧ is_inf mx = false ∧ (mxo = true → (length (at_score mx l) ≤ 1)%nat).
(** the two ends are in order *)
Definition ordered_ends (mn : float) (mx : float) (mxo : bool) : Prop := below_max mx mxo mn = true.
(** the intervals on which ZCOUNT, and ZRANGEBYSCORE, is right (C34) *)
Definition count_specified (mn : float) (mo : bool) (mx : float) (mxo : bool) (es : list zkey) : Prop :=
  (good_min mn es ∧ good_max mx mxo es ∧ (is_ninf mn = true → mo = false) ∧ ordered_ends mn mx mxo) ∨
  (is_nan mn = false ∧ is_inf mn = false ∧ length (at_score mn es) = 1%nat ∧ is_pinf mx = true ∧ mxo = false) ∨
  (is_ninf mn = true ∧ is_pinf mx = true ∧ mo = false ∧ mxo = false).
Definition select_specified (mn : float) (mo : bool) (mx : float) (mxo : bool) (es : list zkey) : Prop :=
  (good_min mn es ∧ good_max mx mxo es ∧ (is_ninf mn = true → mo = false) ∧ ordered_ends mn mx mxo ∧
   Exists (λ k : zkey, below_max mx mxo k.1 = true) es) ∨
  (is_ninf mn = true ∧ is_pinf mx = true ∧ mo = false ∧ mxo = false).

(** ** What the code computes on every interval *)
(** the members with scores up to [f] *)
Definition up_to (f : float) (l : list zkey) : list zkey := filter (λ k, fle k.1 f = true) l.
(** The rank taken for the lower end.  For an open end that is the score of members: one past the rank (from 1) of
    one of them; which one depends on the heights of the towers.  In every other case the number of members up to
    it (so the last member up to it is included).  [-1] stands for an infinity, of either sign. *)
Inductive lower_rank (mn : float) (mo : bool) (l : list zkey) : Z → Prop :=
| lower_inf : is_inf mn = true → lower_rank mn mo l (-1)
| lower_count : is_inf mn = false → (mo = true → at_score mn l = []) → lower_rank mn mo l (Z.of_nat (length (up_to mn l)))
| lower_open p k : is_inf mn = false → mo = true → l !! p = Some k → feq k.1 mn = true → lower_rank mn mo l (Z.of_nat p + 2).
(** The rank taken for the upper end: the same, with the rank before that of the member hit for an open end *)
Inductive upper_rank (mx : float) (mxo : bool) (l : list zkey) : Z → Prop :=
| upper_inf : is_inf mx = true → upper_rank mx mxo l (-1)
| upper_count : is_inf mx = false → (mxo = true → at_score mx l = []) → upper_rank mx mxo l (Z.of_nat (length (up_to mx l)))
| upper_open p k : is_inf mx = false → mxo = true → l !! p = Some k → feq k.1 mx = true → upper_rank mx mxo l (Z.of_nat p).
(** ZCOUNT from the two ranks *)
Definition rank_count (lo hi len : Z) : Z :=
  if lo <=? 0 then hi else if hi <? 0 then len - lo + 1 else hi - lo + 1.
(** the positions ZRANGEBYSCORE lists, in the sense of ZRANGE *)
Definition rank_window (lo hi len : Z) : Z * Z :=
  if lo <=? 0 then (0, hi - 1) else if hi <? 0 then (lo - 1, len) else (lo - 1, hi - 1).
