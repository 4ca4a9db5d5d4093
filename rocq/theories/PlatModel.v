(** Model of the clocks and pins of the platforms: platform/implementations/mock.hpp, zephyr.hpp, arduino.hpp; platform/gpio.hpp. *)
From Coq Require Import ZArith Bool List.
From Verif Require Import Base KTimeModel.
Import ListNotations.
Open Scope Z_scope.

(** ** The mock clock. mock.hpp:189-192 *)
Record mock := mkMock { m_ms : Z; m_us : Z }.
Definition mock0 : mock := mkMock 0 0.
(** mock.hpp:220-221; 1000 is an int, so kdiv_scalar never halts here *)
Definition mock_millis (m : mock) : Z := kadd MS US (m_ms m) (Z.quot (m_us m) 1000).
Definition mock_micros (m : mock) : Z := kadd US MS (m_us m) (kscale (m_ms m) 1000).
(** mock.hpp:222-223; platform.hpp:96-102 *)
Inductive delay := DelayUs (n : Z) | DelayMs (n : Z).
Definition mock_delay (m : mock) (d : delay) : mock :=
  match d with
  | DelayUs n => mkMock (m_ms m) (kadd US US (m_us m) n)
  | DelayMs n => mkMock (kadd MS MS (m_ms m) n) (m_us m)
  end.
Definition mock_run (ds : list delay) : mock := fold_left mock_delay ds mock0.

(** ** Zephyr's delays, in microseconds waited: k_msleep(n) waits n ms, k_busy_wait(n) n us (zephyr.hpp:40-47). Both take 32-bit
    arguments; their range and the rounding to ticks are not modelled. *)
Definition zephyr_delay_us (us : Z) : Z := if 1000 <=? us then 1000 * Z.quot us 1000 else us.
Definition zephyr_delay_ms (ms : Z) : Z := 1000 * ms.

(** ** Digital output. core/types.hpp:5 *)
Inductive lstate := L_OFF | L_ON | L_UNDEFINED.
(** The conversion of the enumeration to bool, and back (gpio.hpp:21) *)
Definition to_bool (s : lstate) : bool := match s with L_OFF => false | _ => true end.
Definition of_bool (b : bool) : lstate := if b then L_ON else L_OFF.
(** An output: gpio.hpp:24-25 and the configuration (arduino.hpp:40-44); the level of its pin, unknown at first *)
Record dout := mkDout { active_low : bool; active : lstate; level : option bool }.
Definition new_dout (low : bool) : dout := mkDout low L_OFF None.
(** gpio.hpp:17-20 with arduino.hpp:51-55 *)
Definition set_state (d : dout) (s : lstate) : dout :=
  mkDout (active_low d) s (Some (match s with L_ON => negb (active_low d) | _ => active_low d end)).
(** gpio.hpp:21-23 *)
Definition set_bool (d : dout) (b : bool) : dout := set_state d (of_bool b).
Definition flip (d : dout) : dout := set_bool d (negb (to_bool (active d))).
(** gpio.hpp:13-16 *)
Definition init_out (d : dout) (b : bool) : dout := set_bool d b.
Inductive dop := DInit (b : bool) | DSet (s : lstate) | DBool (b : bool) | DFlip.
Definition dstep (d : dout) (o : dop) : dout :=
  match o with DInit b => init_out d b | DSet s => set_state d s | DBool b => set_bool d b | DFlip => flip d end.
Definition drun (d : dout) (os : list dop) : dout := fold_left dstep os d.

(** ** Interrupts of Arduino. core/types.hpp:6 *)
Inductive trigger := Rising | Falling | Both | Undefined.
Definition callback := nat.
Record irq := mkIrq { ipin : nat; imode : trigger; icallback : option callback }.
(** The platform's table: which callback and mode bits is attached to which interrupt number *)
Definition itable := nat -> option (option callback * Z).
Definition iset (t : itable) (n : nat) (v : option (option callback * Z)) : itable := fun k => if Nat.eqb k n then v else t k.
(** arduino.hpp:195-200: CHANGE is 1, FALLING 2, RISING 3 *)
Definition mode_bits (m : trigger) : Z := match m with Both => 1 | Falling => 2 | Rising => 3 | Undefined => 0 end.
(** arduino.hpp:187-211. [map] is digitalPinToInterrupt, None for NOT_AN_INTERRUPT; with [raw] (ATmega8, 168, 328P) the pin is used as
    the number. In release builds a pin without interrupt attaches at the number -1, which is left out: the table stays. *)
Definition attach (dbg raw : bool) (map : nat -> option nat) (i : irq) (t : itable) (cb : option callback) (tr : trigger) : outcome (irq * itable) :=
  let cb' := match cb with Some c => Some c | None => icallback i end in
  let m := match tr with Undefined => imode i | _ => tr end in
  let i' := mkIrq (ipin i) m cb' in
  if raw then Ok (i', iset t (ipin i) (Some (cb', mode_bits m)))
  else match map (ipin i) with
       | None => if dbg then Halt else Ok (i', t)
       | Some n => Ok (i', iset t n (Some (cb', mode_bits m)))
       end.
(** arduino.hpp:213 *)
Definition detach (i : irq) (t : itable) : itable := iset t (ipin i) None.
