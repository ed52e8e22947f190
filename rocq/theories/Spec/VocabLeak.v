(** What an observer of control flow and memory addresses learns from a run: every branch outcome,
    loop bound, array index and slice, every request to the random generator, and for each hash
    invocation which function is called, its address and the lengths of its inputs, but not the
    contents of the inputs. *)
From Verif Require Import Machine Model.Api.

Inductive observation :=
| OHash (k : hkind) (pkseed_len : N) (a : Adrs) (input_lens : list N)
| OHmsg (r_len pkseed_len pkroot_len : N) (m_lens : list N)
| OPrfMsg (skprf_len optrand_len : N) (m_lens : list N)
| ORng (n : N)
| OBranch (b : bool)
| OLoop (lo hi : N)
| OIndex (i len : N)
| OSlice (lo hi len : N).

Definition observe (e : event) : observation :=
  match e with
  | EHash k ps a ins => OHash k (nlen ps) a (map nlen ins)
  | EHmsg r ps root m => OHmsg (nlen r) (nlen ps) (nlen root) (map nlen m)
  | EPrfMsg skprf opt m => OPrfMsg (nlen skprf) (nlen opt) (map nlen m)
  | ERng n => ORng n
  | EBranch b => OBranch b
  | ELoop lo hi => OLoop lo hi
  | EIndex i len => OIndex i len
  | ESlice lo hi len => OSlice lo hi len
  end.

Definition leakage (t : list event) : list observation := map observe t.
