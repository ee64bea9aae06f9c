(** * CtxSpec: vocabulary of C60 *)
From Coq Require Import List Bool Arith.
From Verif Require Import Ctx.
Import ListNotations.

(** The buffers entered in [b]. *)
Fixpoint buffers (b : block) : list nat :=
  match b with
  | Seq b1 b2 => buffers b1 ++ buffers b2
  | Try b => buffers b
  | With (Buf o) _ b => o :: buffers b
  | With _ _ b => buffers b
  | _ => []
  end.
(** No buffer is entered inside itself (one after the other is allowed; the redirect_*
    objects may be nested in any way). *)
Fixpoint nested_ok (b : block) : Prop :=
  match b with
  | Seq b1 b2 => nested_ok b1 /\ nested_ok b2
  | Try b => nested_ok b
  | With (Buf o) _ b => ~ In o (buffers b) /\ nested_ok b
  | With _ _ b => nested_ok b
  | _ => True
  end.
(** What [b] should observe when it starts with the streams [x, y], and whether it raises:
    the innermost context decides. *)
Inductive sees : option nat -> option nat -> block -> list (option nat * option nat) -> bool -> Prop :=
| see_nop x y : sees x y Nop [] false
| see_look x y : sees x y Look [(x, y)] false
| see_throw x y : sees x y Throw [] true
| see_stop x y b1 b2 l : sees x y b1 l true -> sees x y (Seq b1 b2) l true
| see_seq x y b1 b2 l1 l2 r : sees x y b1 l1 false -> sees x y b2 l2 r -> sees x y (Seq b1 b2) (l1 ++ l2) r
| see_try x y b l r : sees x y b l r -> sees x y (Try b) l false
| see_buf x y o f b l r : sees (Some o) (Some o) b l r -> sees x y (With (Buf o) f b) l (r || f)
| see_out x y o t f b l r : sees (Some t) y b l r -> sees x y (With (ROut o t) f b) l (r || f)
| see_err x y o t f b l r : sees x (Some t) b l r -> sees x y (With (RErr o t) f b) l (r || f).
