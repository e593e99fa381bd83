(** Model of config/config.go (the whole file).

    The package holds one variable, a pointer to the last configuration taken
    in, and reads it for one setting.  The YAML library is outside: [Decode] is
    a parameter, a function from the bytes of the reader to either the
    configuration it filled in or nothing (an error).  The server does not use
    this package (DESIGN.md); it is modelled as the library it is.

    Every bit of a [time.Duration] is a number of nanoseconds in an int64; the
    decoder may give any. *)
From stdpp Require Import prelude strings list.
From Coq Require Import ZArith.
Open Scope Z_scope.

(** config/config.go 10-13: [type Config struct] *)
Record config := MkConfig { default_timeout : Z; persistence : string }.

(** config/config.go 28: [var cfg *Config]; [None] is the nil pointer *)
Definition cfg := option config.
Definition cfg_start : cfg := None.

Section with_yaml.
(** gopkg.in/yaml.v3, [Decoder.Decode] into a fresh [Config] (line 19): [None] is
    an error.  What a failing decode left in the fresh value is dropped by the
    code (line 20 returns before line 23). *)
Context (decode : string → option config).

(** config/config.go 15-26: [InitConfig]; the boolean says that the error
    returned is nil *)
Definition InitConfig (r : string) (c : cfg) : cfg * bool :=
  match decode r with
  | None => (c, false)                                      (* lines 19-21 *)
  | Some tmp => (Some tmp, true)                            (* lines 18, 23-24 *)
  end.
End with_yaml.

(** config/config.go 30-36: [GetDefaultTimeout]; [time.Second * 5] in nanoseconds *)
Definition GetDefaultTimeout (c : cfg) : Z :=
  match c with
  | None => 5 * 1000000000                                  (* line 31, first half *)
  | Some x => if default_timeout x =? 0 then 5 * 1000000000 (* line 31, second half *)
              else default_timeout x                        (* line 35 *)
  end.
