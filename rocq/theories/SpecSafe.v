(** What a client may ask without any risk of crashing the server, in terms of the requests alone.  Nothing here refers to
    the model of the code.  (Outside these rules requests exist that crash it: see C38.) *)
From Verif Require Import GoBase Float64.

(** How the clients of a server use LREM: not at all; only from the head, and then nobody uses RPUSH; or only from the
    tail, and then nobody uses LPUSH.  (A list emptied by LREM is broken at the other end, see C22.) *)
Inductive habit := NoLrem | HeadLrem | TailLrem.

Definition harmless (ext : Ext) (hb : habit) (req : list string) : Prop :=
  match req with
  | [] => True
  | name :: a =>
      let n := to_lower name in
      (* KEYS with a pattern the glob library accepts *)
      (n = "keys"%string → ∀ p, a !! 0%nat = Some p → is_Some (glob_compile ext p)) ∧
      (* no removal from the middle or the top of a sorted set (see C32, C33) *)
      n ≠ "zrem"%string ∧ n ≠ "zpopmax"%string ∧
      (* scores are numbers, increments finite numbers *)
      (n = "zadd"%string → ∀ x f, x ∈ a → parse_float ext x = Some f →
         is_nan f = false ∧ (is_inf f = true → ∀ y, y ∈ a → to_lower y ≠ "incr"%string)) ∧
      (n = "zincr"%string → ∀ x f, x ∈ a → parse_float ext x = Some f → is_nan f = false ∧ is_inf f = false) ∧
      (n = "lrem"%string → match hb with
         | NoLrem => False
         | HeadLrem => ∀ x i, a !! 1%nat = Some x → parse_int x = Some i → 0 ≤ i
         | TailLrem => ∀ x i, a !! 1%nat = Some x → parse_int x = Some i → i < 0
         end) ∧
      (n = "rpush"%string → hb ≠ HeadLrem) ∧ (n = "lpush"%string → hb ≠ TailLrem)
  end.
(** the number of arguments in all requests *)
Definition volume (h : list (list string)) : Z := Z.of_nat (length (concat h)).
