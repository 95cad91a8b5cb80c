(** * AppBuild.v: how an app service makes its state machine
    (service/AbstractAppService.java, service/AbstractAppContext.java; paths are
    relative to /repo/src/main/java/com/webotech/statemachine) *)
From Verif Require Export Build.

(** The calls of the constructor, AbstractAppService.java:56-60, on a new Config u, a
    new Builder b; h: the result of createDefaultStrategy.  [n]: what
    appContext.getAppThreadName() returns.  (setContext is left out.) *)
Definition app_constructor (u h b : nat) (n : option string) : list bop :=
  [OName u n; OCreate h false (CUser u); OSetStrategy b (Some h); OBuild b].

(** AbstractAppContext.getAppThreadName (lines 70-73) after the calls
    withAppThreadName(n) for each n in the list (lines 50-54); line 32 *)
Definition app_thread_name (calls : list (option string)) : option string := last calls (Some "app"%string).
