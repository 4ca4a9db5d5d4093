(** Model of ArduinoUART (platform/implementations/arduino.hpp:232-268) over a serial port, which is the bytes that it has received and not
    yet given out, and the bytes sent. The timeout of readBytes is taken to pass without more bytes arriving. *)
From Coq Require Import List ZArith Bool Arith.
From Verif Require Import Base.
Import ListNotations.
Open Scope Z_scope.

Record port := mkPort { rx : list Z; tx : list Z }.
(** Arduino's Stream::read(): the next byte, or -1 *)
Definition stream_read (p : port) : Z * port := match rx p with b :: t => (b, mkPort t (tx p)) | [] => (-1, p) end.
(** arduino.hpp:243-246 *)
Definition available (p : port) : nat := length (rx p).
(** arduino.hpp:254: readBytes gives up to the length *)
Definition read_bytes (n : nat) (p : port) : list Z * port := (firstn n (rx p), mkPort (skipn n (rx p)) (tx p)).
(** arduino.hpp:255-258: what is returned, the byte stored, cut to uint8_t, and the port *)
Definition read_byte (p : port) : bool * Z * port := let '(v, p') := stream_read p in (true, v mod 2 ^ 8, p').
(** arduino.hpp:260-264: the port takes all bytes *)
Definition write_bytes (bs : list Z) (p : port) : nat * port := (length bs, mkPort (rx p) (tx p ++ bs)).
Definition write_byte (b : Z) (p : port) : bool * port := (true, mkPort (rx p) (tx p ++ [b])).
