(** A recording of several events, each with its own configuration.

    Nothing here is in the crate: this is a program of a client, one like that of Follow.v which makes a new
    [Parser] (src/parse.rs:156-162) for every record, here with the configuration of the event the record belongs
    to.  The kernel writes the identifier of the event at a place that is the same for all events which have
    PERF_SAMPLE_IDENTIFIER (uapi 940-945, 843-850): as the first word of a sample, and as the last word of every
    other record. *)
From Coq Require Import NArith List Bool.
From Verif Require Import Base Types Platform Config Buf Parser Records Sample Record Framing Follow.
Import ListNotations.
Open Scope N_scope.

(** The identifier in the record [f]. *)
Definition whose (o : order) (f : list N) : N :=
  from_order o (if from_order o (take 4 f) =? 9 then take 8 (drop 8 f) else drop (len f - 8) f).

(** The configuration of the event with this identifier; [c0] if there is none. *)
Definition config_for (events : list (N * config)) (c0 : config) (id : N) : config :=
  match find (fun e => fst e =? id) events with Some e => snd e | None => c0 end.

(** The same for the record at the head of [l]. *)
Definition config_at (o : order) (events : list (N * config)) (c0 : config) (l : list N) : config :=
  config_for events c0 (whose o (take (N.max 8 (size_of o l)) l)).

Section Mixed.
Context (pl : platform) {S : Type} (PB : parsebuf S) (open : config -> N -> list N -> parser S) (o : order)
  (events : list (N * config)) (c0 : config) {O : Type} (V : visitor O).

Definition sort_out : nat -> N -> list N -> list (out O) * (N * list N) :=
  drain pl PB (fun pos l => open (config_at o events c0 l) pos l) o V.
End Mixed.
