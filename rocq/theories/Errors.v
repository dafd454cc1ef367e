(** quiche/src/error.rs:37-118, enum Error. *)
Require Import ZArith.

Inductive error : Type :=
| Done
| BufferTooShort
| UnknownVersion
| InvalidFrame
| InvalidPacket
| InvalidState
| InvalidStreamState (id : Z)
| InvalidTransportParam
| CryptoFail
| TlsFail
| FlowControlE
| StreamLimit
| StreamStopped (code : Z)
| StreamReset (code : Z)
| FinalSize
| CongestionControl
| IdLimit
| OutOfIdentifiers
| KeyUpdate
| CryptoBufferExceeded
| InvalidAckRange
| OptimisticAckDetected
| InvalidDcidInitialization.
