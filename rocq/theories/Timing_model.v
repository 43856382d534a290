(** Model of the timing parameters lambdalib computes, at construction time, from
    frequencies: cycle counts, dividers and tuning words, in the program's binary64
    floats ([Float_model]).  Simplification: the frequencies are whole numbers of Hz. *)
From Verif Require Import Float_model.
Local Open Scope Q_scope.

(** WS2812B, cores/led/ws2812b.py:30-33 *)
Definition ws_t0h (f : Z) : Z := fint (fmul (dec (295 # 1000000000)) (inject_Z f)).   (* 30: int(0.295e-6 * f) *)
Definition ws_t1h (f : Z) : Z := fint (fmul (dec (595 # 1000000000)) (inject_Z f)).   (* 31: int(0.595e-6 * f) *)
Definition ws_t (f : Z) : Z := fint (fmul (dec (890 # 1000000000)) (inject_Z f)).     (* 32: int(0.890e-6 * f) *)
Definition ws_trst (f : Z) : Z := fint (fmul (dec (80 # 1000000)) (inject_Z f)).      (* 33: int(80e-6 * f) *)

(** SPIPHYMaster, cores/spi/master.py:27-29 (the capped frequency), 32 and 33 *)
Definition spi_capped (sys spi : Z) : Q :=
  let m := ffloordiv (inject_Z sys) 2 in if Qle_bool (inject_Z spi) m then inject_Z spi else m.
Definition spi_divisor (sys spi : Z) : Z :=
  fceil (fsub (fdiv (fdiv (inject_Z sys) (spi_capped sys spi)) 2) 1).
Definition spi_cs_delay (sys spi delay : Z) : Z :=
  fceil (fdiv (fmul (inject_Z delay) (inject_Z sys)) (spi_capped sys spi)).

(** PulseClock, TuningClock, cores/time/clk.py:21, 42.  2**32 is an int. *)
Definition pulse_tuning_word (sys target : Z) : Z :=
  fint (fmul (fdiv (inject_Z target) (inject_Z sys)) (inject_Z (2 ^ 32))).
Definition tuning_tuning_word (sys target : Z) : Z :=
  fint (fmul (fdiv (fmul 2 (inject_Z target)) (inject_Z sys)) (inject_Z (2 ^ 32))).

(** _Timer, cores/usb/ulpi.py:293, 295 *)
Definition ulpi_cnt2us (f : Z) : Z := fint (fmul (inject_Z f) (dec (2 # 1000000))).
Definition ulpi_cnt4ms (f : Z) : Z := fint (fmul (inject_Z f) (dec (4 # 1000))).
(** UTMITranslator, cores/usb/utmi.py:43 *)
Definition utmi_por_cycles : Z := fint (fmul (inject_Z 60000000) (dec (2 # 1000000))).

(** I2CProto, cores/i2c/proto.py:67, and I2CRegInit, cores/i2c/init.py:47, with
    int(period_cyc) of cores/i2c/i2c.py:130 *)
Definition i2c_period (sys freq : Z) : Z := fint (ffloordiv (inject_Z sys) (inject_Z freq)).
(** The UART divisor of the bridge example, examples/i2c_bridge.py:34 *)
Definition uart_divisor (sys baud : Z) : Z := fint (fdiv (inject_Z sys) (inject_Z baud)).
(** BlinkKeep, cores/led/blink.py:17 *)
Definition blink_thresh (duty : Q) : Z := fint (fmul duty (inject_Z (2 ^ 8))).
