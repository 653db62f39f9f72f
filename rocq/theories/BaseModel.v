(** src/iocp/afd.rs, the part that asks for the base socket of a socket. *)
From stdpp Require Import prelude list.
From Verif Require Import Types.
Local Open Scope nat_scope.

(** The two control codes that are used: SIO_BASE_HANDLE and SIO_BSP_HANDLE_POLL. src/iocp/afd.rs:652, 662, 668. *)
Inductive ioctl := BaseHandle | BspHandlePoll.
(** A question: the socket and the control code, the arguments of src/iocp/afd.rs:676. *)
Definition query : Type := nat * ioctl.
(** What Winsock and the layered service providers below a socket answer; an answer may depend on what was asked before.
    WSAIoctl of src/iocp/afd.rs:680-690; not in /repo. *)
Definition winsock : Type := list query -> query -> res nat.

(** src/iocp/afd.rs:676-697 [try_socket_ioctl].  WSAIoctl returns SOCKET_ERROR or a socket; [log] is the list of the questions
    asked so far. *)
Definition try_socket_ioctl (w : winsock) (q : query) (log : list query) : res nat * list query :=
  (w log q, log ++ [q]).

(** src/iocp/afd.rs:650-669 [base_socket]. *)
Definition base_socket (w : winsock) (sock : nat) (log : list query) : res nat * list query :=
  match try_socket_ioctl w (sock, BaseHandle) log with
  | (Ok b, log) => (Ok b, log)
  | (Panic, log) => (Panic, log)
  | (Err e, log) =>
      match kind e with
      | KInvalidInput => (Err e, log)
      | _ =>
          match try_socket_ioctl w (sock, BspHandlePoll) log with
          | (Ok t, log) => if decide (t = sock) then (Err (ESimple KInvalidInput), log) else try_socket_ioctl w (t, BaseHandle) log
          | x => x
          end
      end
  end.
