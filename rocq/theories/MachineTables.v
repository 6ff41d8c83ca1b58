(** GENERATED by tools/ragel2coq.py from internal/ddl/*_parser.go; do not edit.
    Each definition is one generated Go function: per state its decision tree on
    data[p], per tr label its actions and target, and the actions at the end. *)
From stdpp Require Import list numbers.
From Verif Require Import MachineModel.
Local Open Scope Z_scope.

(** internal/ddl/check_parser.go:160-1033: the states. *)
Definition check_states : list (N * tree) :=
  [(1%N, If 32 32 (Goto (ToState 1)) (If 67 67 (Goto (ToState 2)) (If 99 99 (Goto (ToState 2)) (If 9 13 (Goto (ToState 1)) (Goto (ToState 0)))))) (* check_parser.go:160 *);
   (2%N, If 72 72 (Goto (ToState 3)) (If 104 104 (Goto (ToState 3)) (Goto (ToState 0)))) (* check_parser.go:181 *);
   (3%N, If 69 69 (Goto (ToState 4)) (If 101 101 (Goto (ToState 4)) (Goto (ToState 0)))) (* check_parser.go:193 *);
   (4%N, If 67 67 (Goto (ToState 5)) (If 99 99 (Goto (ToState 5)) (Goto (ToState 0)))) (* check_parser.go:205 *);
   (5%N, If 75 75 (Goto (ToState 6)) (If 107 107 (Goto (ToState 6)) (Goto (ToState 0)))) (* check_parser.go:217 *);
   (6%N, If 32 32 (Goto (ToState 6)) (If 40 40 (Goto (ToState 7)) (If 9 13 (Goto (ToState 6)) (Goto (ToState 0))))) (* check_parser.go:229 *);
   (7%N, If 41 41 (Goto (ToTr 9)) (Goto (ToTr 8))) (* check_parser.go:244 *);
   (8%N, If 41 41 (Goto (ToTr 11)) (Goto (ToState 8))) (* check_parser.go:259 *);
   (9%N, If 41 41 (Goto (ToTr 11)) (If 69 69 (Goto (ToState 10)) (If 101 101 (Goto (ToState 10)) (Goto (ToState 8))))) (* check_parser.go:328 *);
   (10%N, If 41 41 (Goto (ToTr 11)) (If 70 70 (Goto (ToState 11)) (If 102 102 (Goto (ToState 11)) (Goto (ToState 8))))) (* check_parser.go:342 *);
   (11%N, If 41 41 (Goto (ToTr 11)) (If 69 69 (Goto (ToState 12)) (If 101 101 (Goto (ToState 12)) (Goto (ToState 8))))) (* check_parser.go:356 *);
   (12%N, If 41 41 (Goto (ToTr 11)) (If 82 82 (Goto (ToState 13)) (If 114 114 (Goto (ToState 13)) (Goto (ToState 8))))) (* check_parser.go:370 *);
   (13%N, If 41 41 (Goto (ToTr 11)) (If 82 82 (Goto (ToState 14)) (If 114 114 (Goto (ToState 14)) (Goto (ToState 8))))) (* check_parser.go:384 *);
   (14%N, If 41 41 (Goto (ToTr 11)) (If 65 65 (Goto (ToState 15)) (If 97 97 (Goto (ToState 15)) (Goto (ToState 8))))) (* check_parser.go:398 *);
   (15%N, If 41 41 (Goto (ToTr 11)) (If 66 66 (Goto (ToState 16)) (If 98 98 (Goto (ToState 16)) (Goto (ToState 8))))) (* check_parser.go:412 *);
   (16%N, If 41 41 (Goto (ToTr 11)) (If 76 76 (Goto (ToState 17)) (If 108 108 (Goto (ToState 17)) (Goto (ToState 8))))) (* check_parser.go:426 *);
   (17%N, If 41 41 (Goto (ToTr 11)) (If 69 69 (Goto (ToState 18)) (If 101 101 (Goto (ToState 18)) (Goto (ToState 8))))) (* check_parser.go:440 *);
   (18%N, If 32 32 (Goto (ToTr 21)) (If 41 41 (Goto (ToTr 11)) (If 9 13 (Goto (ToTr 21)) (Goto (ToState 8))))) (* check_parser.go:454 *);
   (19%N, If 41 41 (Goto (ToTr 11)) (If 78 78 (Goto (ToState 20)) (If 110 110 (Goto (ToState 20)) (Goto (ToState 8))))) (* check_parser.go:493 *);
   (20%N, If 41 41 (Goto (ToTr 11)) (If 73 73 (Goto (ToState 21)) (If 105 105 (Goto (ToState 21)) (Goto (ToState 8))))) (* check_parser.go:507 *);
   (21%N, If 41 41 (Goto (ToTr 11)) (If 84 84 (Goto (ToState 22)) (If 116 116 (Goto (ToState 22)) (Goto (ToState 8))))) (* check_parser.go:521 *);
   (22%N, If 41 41 (Goto (ToTr 11)) (If 73 73 (Goto (ToState 23)) (If 105 105 (Goto (ToState 23)) (Goto (ToState 8))))) (* check_parser.go:535 *);
   (23%N, If 41 41 (Goto (ToTr 11)) (If 65 65 (Goto (ToState 24)) (If 97 97 (Goto (ToState 24)) (Goto (ToState 8))))) (* check_parser.go:549 *);
   (24%N, If 41 41 (Goto (ToTr 11)) (If 76 76 (Goto (ToState 25)) (If 108 108 (Goto (ToState 25)) (Goto (ToState 8))))) (* check_parser.go:563 *);
   (25%N, If 41 41 (Goto (ToTr 11)) (If 76 76 (Goto (ToState 26)) (If 108 108 (Goto (ToState 26)) (Goto (ToState 8))))) (* check_parser.go:577 *);
   (26%N, If 41 41 (Goto (ToTr 11)) (If 89 89 (Goto (ToState 27)) (If 121 121 (Goto (ToState 27)) (Goto (ToState 8))))) (* check_parser.go:591 *);
   (27%N, If 32 32 (Goto (ToState 28)) (If 41 41 (Goto (ToTr 11)) (If 9 13 (Goto (ToState 28)) (Goto (ToState 8))))) (* check_parser.go:605 *);
   (28%N, If 32 32 (Goto (ToState 28)) (If 41 41 (Goto (ToTr 11)) (If 68 68 (Goto (ToState 29)) (If 73 73 (Goto (ToState 36)) (If 100 100 (Goto (ToState 29)) (If 105 105 (Goto (ToState 36)) (If 9 13 (Goto (ToState 28)) (Goto (ToState 8))))))))) (* check_parser.go:620 *);
   (29%N, If 41 41 (Goto (ToTr 11)) (If 69 69 (Goto (ToState 30)) (If 101 101 (Goto (ToState 30)) (Goto (ToState 8))))) (* check_parser.go:643 *);
   (30%N, If 41 41 (Goto (ToTr 11)) (If 70 70 (Goto (ToState 31)) (If 102 102 (Goto (ToState 31)) (Goto (ToState 8))))) (* check_parser.go:657 *);
   (31%N, If 41 41 (Goto (ToTr 11)) (If 69 69 (Goto (ToState 32)) (If 101 101 (Goto (ToState 32)) (Goto (ToState 8))))) (* check_parser.go:671 *);
   (32%N, If 41 41 (Goto (ToTr 11)) (If 82 82 (Goto (ToState 33)) (If 114 114 (Goto (ToState 33)) (Goto (ToState 8))))) (* check_parser.go:685 *);
   (33%N, If 41 41 (Goto (ToTr 11)) (If 82 82 (Goto (ToState 34)) (If 114 114 (Goto (ToState 34)) (Goto (ToState 8))))) (* check_parser.go:699 *);
   (34%N, If 41 41 (Goto (ToTr 11)) (If 69 69 (Goto (ToState 35)) (If 101 101 (Goto (ToState 35)) (Goto (ToState 8))))) (* check_parser.go:713 *);
   (35%N, If 41 41 (Goto (ToTr 11)) (If 68 68 (Goto (ToTr 39)) (If 100 100 (Goto (ToTr 39)) (Goto (ToState 8))))) (* check_parser.go:727 *);
   (36%N, If 41 41 (Goto (ToTr 11)) (If 77 77 (Goto (ToState 37)) (If 109 109 (Goto (ToState 37)) (Goto (ToState 8))))) (* check_parser.go:761 *);
   (37%N, If 41 41 (Goto (ToTr 11)) (If 77 77 (Goto (ToState 38)) (If 109 109 (Goto (ToState 38)) (Goto (ToState 8))))) (* check_parser.go:775 *);
   (38%N, If 41 41 (Goto (ToTr 11)) (If 69 69 (Goto (ToState 39)) (If 101 101 (Goto (ToState 39)) (Goto (ToState 8))))) (* check_parser.go:789 *);
   (39%N, If 41 41 (Goto (ToTr 11)) (If 68 68 (Goto (ToState 40)) (If 100 100 (Goto (ToState 40)) (Goto (ToState 8))))) (* check_parser.go:803 *);
   (40%N, If 41 41 (Goto (ToTr 11)) (If 73 73 (Goto (ToState 41)) (If 105 105 (Goto (ToState 41)) (Goto (ToState 8))))) (* check_parser.go:817 *);
   (41%N, If 41 41 (Goto (ToTr 11)) (If 65 65 (Goto (ToState 42)) (If 97 97 (Goto (ToState 42)) (Goto (ToState 8))))) (* check_parser.go:831 *);
   (42%N, If 41 41 (Goto (ToTr 11)) (If 84 84 (Goto (ToState 43)) (If 116 116 (Goto (ToState 43)) (Goto (ToState 8))))) (* check_parser.go:845 *);
   (43%N, If 41 41 (Goto (ToTr 11)) (If 69 69 (Goto (ToState 59)) (If 101 101 (Goto (ToState 59)) (Goto (ToState 8))))) (* check_parser.go:859 *);
   (44%N, If 41 41 (Goto (ToTr 11)) (If 79 79 (Goto (ToState 45)) (If 111 111 (Goto (ToState 45)) (Goto (ToState 8))))) (* check_parser.go:873 *);
   (45%N, If 41 41 (Goto (ToTr 11)) (If 84 84 (Goto (ToState 46)) (If 116 116 (Goto (ToState 46)) (Goto (ToState 8))))) (* check_parser.go:887 *);
   (46%N, If 32 32 (Goto (ToState 47)) (If 41 41 (Goto (ToTr 11)) (If 9 13 (Goto (ToState 47)) (Goto (ToState 8))))) (* check_parser.go:901 *);
   (47%N, If 32 32 (Goto (ToState 47)) (If 41 41 (Goto (ToTr 11)) (If 68 68 (Goto (ToState 48)) (If 100 100 (Goto (ToState 48)) (If 9 13 (Goto (ToState 47)) (Goto (ToState 8))))))) (* check_parser.go:916 *);
   (48%N, If 41 41 (Goto (ToTr 11)) (If 69 69 (Goto (ToState 49)) (If 101 101 (Goto (ToState 49)) (Goto (ToState 8))))) (* check_parser.go:935 *);
   (49%N, If 41 41 (Goto (ToTr 11)) (If 70 70 (Goto (ToState 50)) (If 102 102 (Goto (ToState 50)) (Goto (ToState 8))))) (* check_parser.go:949 *);
   (50%N, If 41 41 (Goto (ToTr 11)) (If 69 69 (Goto (ToState 51)) (If 101 101 (Goto (ToState 51)) (Goto (ToState 8))))) (* check_parser.go:963 *);
   (51%N, If 41 41 (Goto (ToTr 11)) (If 82 82 (Goto (ToState 52)) (If 114 114 (Goto (ToState 52)) (Goto (ToState 8))))) (* check_parser.go:977 *);
   (52%N, If 41 41 (Goto (ToTr 11)) (If 82 82 (Goto (ToState 53)) (If 114 114 (Goto (ToState 53)) (Goto (ToState 8))))) (* check_parser.go:991 *);
   (53%N, If 41 41 (Goto (ToTr 11)) (If 65 65 (Goto (ToState 54)) (If 97 97 (Goto (ToState 54)) (Goto (ToState 8))))) (* check_parser.go:1005 *);
   (54%N, If 41 41 (Goto (ToTr 11)) (If 66 66 (Goto (ToState 55)) (If 98 98 (Goto (ToState 55)) (Goto (ToState 8))))) (* check_parser.go:1019 *);
   (55%N, If 41 41 (Goto (ToTr 11)) (If 76 76 (Goto (ToState 43)) (If 108 108 (Goto (ToState 43)) (Goto (ToState 8))))) (* check_parser.go:1033 *);
   (56%N, If 32 32 (Goto (ToState 57)) (If 41 41 (Goto (ToTr 11)) (If 9 13 (Goto (ToState 57)) (Goto (ToState 8))))) (* check_parser.go:285 *);
   (57%N, If 32 32 (Goto (ToState 57)) (If 41 41 (Goto (ToTr 11)) (If 68 68 (Goto (ToState 9)) (If 73 73 (Goto (ToState 19)) (If 78 78 (Goto (ToState 44)) (If 100 100 (Goto (ToState 9)) (If 105 105 (Goto (ToState 19)) (If 110 110 (Goto (ToState 44)) (If 9 13 (Goto (ToState 57)) (Goto (ToState 8))))))))))) (* check_parser.go:301 *);
   (58%N, If 32 32 (Goto (ToTr 21)) (If 41 41 (Goto (ToTr 11)) (If 73 73 (Goto (ToState 19)) (If 105 105 (Goto (ToState 19)) (If 9 13 (Goto (ToTr 21)) (Goto (ToState 8))))))) (* check_parser.go:473 *);
   (59%N, If 32 32 (Goto (ToState 59)) (If 41 41 (Goto (ToTr 11)) (If 9 13 (Goto (ToState 59)) (Goto (ToState 8))))) (* check_parser.go:745 *)].
(** internal/ddl/check_parser.go: the tr labels. *)
Definition check_trs : list (N * (list action * N)) :=
  [(8%N, ([SetMark1], 8%N)) (* check_parser.go:255 *);
   (9%N, ([SetMark1; SetMark2], 56%N)) (* check_parser.go:271 *);
   (11%N, ([SetMark2], 56%N)) (* check_parser.go:281 *);
   (21%N, ([CheckDeferrable], 58%N)) (* check_parser.go:470 *);
   (39%N, ([CheckDeferred], 59%N)) (* check_parser.go:742 *)].
(** internal/ddl/check_parser.go: the actions at the end of the input. *)
Definition check_eof : list (N * list action) :=
  [].
(** internal/ddl/check_parser.go:10-12: start 1, error 0, first final 56. *)
Definition check_machine : machine := Machine check_states check_trs check_eof 56.

(** internal/ddl/foreign_key_parser.go:435-3735: the states. *)
Definition foreign_key_states : list (N * tree) :=
  [(1%N, If 32 32 (Goto (ToState 1)) (If 70 70 (Goto (ToState 2)) (If 102 102 (Goto (ToState 2)) (If 9 13 (Goto (ToState 1)) (Goto (ToState 0)))))) (* foreign_key_parser.go:435 *);
   (2%N, If 79 79 (Goto (ToState 3)) (If 111 111 (Goto (ToState 3)) (Goto (ToState 0)))) (* foreign_key_parser.go:456 *);
   (3%N, If 82 82 (Goto (ToState 4)) (If 114 114 (Goto (ToState 4)) (Goto (ToState 0)))) (* foreign_key_parser.go:468 *);
   (4%N, If 69 69 (Goto (ToState 5)) (If 101 101 (Goto (ToState 5)) (Goto (ToState 0)))) (* foreign_key_parser.go:480 *);
   (5%N, If 73 73 (Goto (ToState 6)) (If 105 105 (Goto (ToState 6)) (Goto (ToState 0)))) (* foreign_key_parser.go:492 *);
   (6%N, If 71 71 (Goto (ToState 7)) (If 103 103 (Goto (ToState 7)) (Goto (ToState 0)))) (* foreign_key_parser.go:504 *);
   (7%N, If 78 78 (Goto (ToState 8)) (If 110 110 (Goto (ToState 8)) (Goto (ToState 0)))) (* foreign_key_parser.go:516 *);
   (8%N, If 32 32 (Goto (ToState 9)) (If 9 13 (Goto (ToState 9)) (Goto (ToState 0)))) (* foreign_key_parser.go:528 *);
   (9%N, If 32 32 (Goto (ToState 9)) (If 75 75 (Goto (ToState 10)) (If 107 107 (Goto (ToState 10)) (If 9 13 (Goto (ToState 9)) (Goto (ToState 0)))))) (* foreign_key_parser.go:540 *);
   (10%N, If 69 69 (Goto (ToState 11)) (If 101 101 (Goto (ToState 11)) (Goto (ToState 0)))) (* foreign_key_parser.go:557 *);
   (11%N, If 89 89 (Goto (ToState 12)) (If 121 121 (Goto (ToState 12)) (Goto (ToState 0)))) (* foreign_key_parser.go:569 *);
   (12%N, If 32 32 (Goto (ToState 13)) (If 9 13 (Goto (ToState 13)) (Goto (ToState 0)))) (* foreign_key_parser.go:581 *);
   (13%N, If 32 32 (Goto (ToState 13)) (If 40 40 (Goto (ToState 14)) (If 9 13 (Goto (ToState 13)) (Goto (ToState 0))))) (* foreign_key_parser.go:593 *);
   (14%N, If 32 32 (Goto (ToState 14)) (If 0 64 (If 9 13 (Goto (ToState 14)) (Goto (ToState 0))) (If 91 255 (If 97 122 (Goto (ToTr 15)) (Goto (ToState 0))) (Goto (ToTr 15))))) (* foreign_key_parser.go:615 *);
   (15%N, If 32 32 (Goto (ToTr 16)) (If 41 41 (Goto (ToTr 17)) (If 44 44 (Goto (ToTr 18)) (If 95 95 (Goto (ToTr 15)) (If 0 47 (If 9 13 (Goto (ToTr 16)) (Goto (ToState 0))) (If 58 255 (If 91 255 (If 97 122 (Goto (ToTr 15)) (Goto (ToState 0))) (If 65 255 (Goto (ToTr 15)) (Goto (ToState 0)))) (Goto (ToTr 15)))))))) (* foreign_key_parser.go:643 *);
   (16%N, If 32 32 (Goto (ToState 16)) (If 41 41 (Goto (ToState 17)) (If 44 44 (Goto (ToState 14)) (If 9 13 (Goto (ToState 16)) (Goto (ToState 0)))))) (* foreign_key_parser.go:684 *);
   (17%N, If 32 32 (Goto (ToState 18)) (If 9 13 (Goto (ToState 18)) (Goto (ToState 0)))) (* foreign_key_parser.go:709 *);
   (18%N, If 32 32 (Goto (ToState 18)) (If 82 82 (Goto (ToState 19)) (If 114 114 (Goto (ToState 19)) (If 9 13 (Goto (ToState 18)) (Goto (ToState 0)))))) (* foreign_key_parser.go:722 *);
   (19%N, If 69 69 (Goto (ToState 20)) (If 101 101 (Goto (ToState 20)) (Goto (ToState 0)))) (* foreign_key_parser.go:739 *);
   (20%N, If 70 70 (Goto (ToState 21)) (If 102 102 (Goto (ToState 21)) (Goto (ToState 0)))) (* foreign_key_parser.go:751 *);
   (21%N, If 69 69 (Goto (ToState 22)) (If 101 101 (Goto (ToState 22)) (Goto (ToState 0)))) (* foreign_key_parser.go:763 *);
   (22%N, If 82 82 (Goto (ToState 23)) (If 114 114 (Goto (ToState 23)) (Goto (ToState 0)))) (* foreign_key_parser.go:775 *);
   (23%N, If 69 69 (Goto (ToState 24)) (If 101 101 (Goto (ToState 24)) (Goto (ToState 0)))) (* foreign_key_parser.go:787 *);
   (24%N, If 78 78 (Goto (ToState 25)) (If 110 110 (Goto (ToState 25)) (Goto (ToState 0)))) (* foreign_key_parser.go:799 *);
   (25%N, If 67 67 (Goto (ToState 26)) (If 99 99 (Goto (ToState 26)) (Goto (ToState 0)))) (* foreign_key_parser.go:811 *);
   (26%N, If 69 69 (Goto (ToState 27)) (If 101 101 (Goto (ToState 27)) (Goto (ToState 0)))) (* foreign_key_parser.go:823 *);
   (27%N, If 83 83 (Goto (ToState 28)) (If 115 115 (Goto (ToState 28)) (Goto (ToState 0)))) (* foreign_key_parser.go:835 *);
   (28%N, If 32 32 (Goto (ToState 29)) (If 9 13 (Goto (ToState 29)) (Goto (ToState 0)))) (* foreign_key_parser.go:847 *);
   (29%N, If 32 32 (Goto (ToState 29)) (If 0 64 (If 9 13 (Goto (ToState 29)) (Goto (ToState 0))) (If 91 255 (If 97 122 (Goto (ToTr 33)) (Goto (ToState 0))) (Goto (ToTr 33))))) (* foreign_key_parser.go:859 *);
   (30%N, If 40 40 (Goto (ToTr 34)) (If 95 95 (Goto (ToTr 33)) (If 0 64 (If 48 57 (Goto (ToTr 33)) (Goto (ToState 0))) (If 91 255 (If 97 122 (Goto (ToTr 33)) (Goto (ToState 0))) (Goto (ToTr 33)))))) (* foreign_key_parser.go:886 *);
   (31%N, If 32 32 (Goto (ToState 31)) (If 0 64 (If 9 13 (Goto (ToState 31)) (Goto (ToState 0))) (If 91 255 (If 97 122 (Goto (ToTr 36)) (Goto (ToState 0))) (Goto (ToTr 36))))) (* foreign_key_parser.go:925 *);
   (32%N, If 32 32 (Goto (ToTr 37)) (If 41 41 (Goto (ToTr 38)) (If 44 44 (Goto (ToTr 39)) (If 95 95 (Goto (ToTr 36)) (If 0 47 (If 9 13 (Goto (ToTr 37)) (Goto (ToState 0))) (If 58 255 (If 91 255 (If 97 122 (Goto (ToTr 36)) (Goto (ToState 0))) (If 65 255 (Goto (ToTr 36)) (Goto (ToState 0)))) (Goto (ToTr 36)))))))) (* foreign_key_parser.go:953 *);
   (33%N, If 32 32 (Goto (ToState 33)) (If 41 41 (Goto (ToState 186)) (If 44 44 (Goto (ToState 31)) (If 9 13 (Goto (ToState 33)) (Goto (ToState 0)))))) (* foreign_key_parser.go:994 *);
   (34%N, If 69 69 (Goto (ToState 35)) (If 101 101 (Goto (ToState 35)) (Goto (ToState 0)))) (* foreign_key_parser.go:1065 *);
   (35%N, If 70 70 (Goto (ToState 36)) (If 102 102 (Goto (ToState 36)) (Goto (ToState 0)))) (* foreign_key_parser.go:1077 *);
   (36%N, If 69 69 (Goto (ToState 37)) (If 101 101 (Goto (ToState 37)) (Goto (ToState 0)))) (* foreign_key_parser.go:1089 *);
   (37%N, If 82 82 (Goto (ToState 38)) (If 114 114 (Goto (ToState 38)) (Goto (ToState 0)))) (* foreign_key_parser.go:1101 *);
   (38%N, If 82 82 (Goto (ToState 39)) (If 114 114 (Goto (ToState 39)) (Goto (ToState 0)))) (* foreign_key_parser.go:1113 *);
   (39%N, If 65 65 (Goto (ToState 40)) (If 97 97 (Goto (ToState 40)) (Goto (ToState 0)))) (* foreign_key_parser.go:1125 *);
   (40%N, If 66 66 (Goto (ToState 41)) (If 98 98 (Goto (ToState 41)) (Goto (ToState 0)))) (* foreign_key_parser.go:1137 *);
   (41%N, If 76 76 (Goto (ToState 42)) (If 108 108 (Goto (ToState 42)) (Goto (ToState 0)))) (* foreign_key_parser.go:1149 *);
   (42%N, If 69 69 (Goto (ToState 43)) (If 101 101 (Goto (ToState 43)) (Goto (ToState 0)))) (* foreign_key_parser.go:1161 *);
   (43%N, If 32 32 (Goto (ToTr 51)) (If 9 13 (Goto (ToTr 51)) (Goto (ToState 0)))) (* foreign_key_parser.go:1173 *);
   (44%N, If 78 78 (Goto (ToState 45)) (If 110 110 (Goto (ToState 45)) (Goto (ToState 0)))) (* foreign_key_parser.go:1207 *);
   (45%N, If 73 73 (Goto (ToState 46)) (If 105 105 (Goto (ToState 46)) (Goto (ToState 0)))) (* foreign_key_parser.go:1219 *);
   (46%N, If 84 84 (Goto (ToState 47)) (If 116 116 (Goto (ToState 47)) (Goto (ToState 0)))) (* foreign_key_parser.go:1231 *);
   (47%N, If 73 73 (Goto (ToState 48)) (If 105 105 (Goto (ToState 48)) (Goto (ToState 0)))) (* foreign_key_parser.go:1243 *);
   (48%N, If 65 65 (Goto (ToState 49)) (If 97 97 (Goto (ToState 49)) (Goto (ToState 0)))) (* foreign_key_parser.go:1255 *);
   (49%N, If 76 76 (Goto (ToState 50)) (If 108 108 (Goto (ToState 50)) (Goto (ToState 0)))) (* foreign_key_parser.go:1267 *);
   (50%N, If 76 76 (Goto (ToState 51)) (If 108 108 (Goto (ToState 51)) (Goto (ToState 0)))) (* foreign_key_parser.go:1279 *);
   (51%N, If 89 89 (Goto (ToState 52)) (If 121 121 (Goto (ToState 52)) (Goto (ToState 0)))) (* foreign_key_parser.go:1291 *);
   (52%N, If 32 32 (Goto (ToState 53)) (If 9 13 (Goto (ToState 53)) (Goto (ToState 0)))) (* foreign_key_parser.go:1303 *);
   (53%N, If 32 32 (Goto (ToState 53)) (If 68 68 (Goto (ToState 54)) (If 73 73 (Goto (ToState 61)) (If 100 100 (Goto (ToState 54)) (If 105 105 (Goto (ToState 61)) (If 9 13 (Goto (ToState 53)) (Goto (ToState 0)))))))) (* foreign_key_parser.go:1315 *);
   (54%N, If 69 69 (Goto (ToState 55)) (If 101 101 (Goto (ToState 55)) (Goto (ToState 0)))) (* foreign_key_parser.go:1336 *);
   (55%N, If 70 70 (Goto (ToState 56)) (If 102 102 (Goto (ToState 56)) (Goto (ToState 0)))) (* foreign_key_parser.go:1348 *);
   (56%N, If 69 69 (Goto (ToState 57)) (If 101 101 (Goto (ToState 57)) (Goto (ToState 0)))) (* foreign_key_parser.go:1360 *);
   (57%N, If 82 82 (Goto (ToState 58)) (If 114 114 (Goto (ToState 58)) (Goto (ToState 0)))) (* foreign_key_parser.go:1372 *);
   (58%N, If 82 82 (Goto (ToState 59)) (If 114 114 (Goto (ToState 59)) (Goto (ToState 0)))) (* foreign_key_parser.go:1384 *);
   (59%N, If 69 69 (Goto (ToState 60)) (If 101 101 (Goto (ToState 60)) (Goto (ToState 0)))) (* foreign_key_parser.go:1396 *);
   (60%N, If 68 68 (Goto (ToTr 69)) (If 100 100 (Goto (ToTr 69)) (Goto (ToState 0)))) (* foreign_key_parser.go:1408 *);
   (61%N, If 77 77 (Goto (ToState 62)) (If 109 109 (Goto (ToState 62)) (Goto (ToState 0)))) (* foreign_key_parser.go:1437 *);
   (62%N, If 77 77 (Goto (ToState 63)) (If 109 109 (Goto (ToState 63)) (Goto (ToState 0)))) (* foreign_key_parser.go:1449 *);
   (63%N, If 69 69 (Goto (ToState 64)) (If 101 101 (Goto (ToState 64)) (Goto (ToState 0)))) (* foreign_key_parser.go:1461 *);
   (64%N, If 68 68 (Goto (ToState 65)) (If 100 100 (Goto (ToState 65)) (Goto (ToState 0)))) (* foreign_key_parser.go:1473 *);
   (65%N, If 73 73 (Goto (ToState 66)) (If 105 105 (Goto (ToState 66)) (Goto (ToState 0)))) (* foreign_key_parser.go:1485 *);
   (66%N, If 65 65 (Goto (ToState 67)) (If 97 97 (Goto (ToState 67)) (Goto (ToState 0)))) (* foreign_key_parser.go:1497 *);
   (67%N, If 84 84 (Goto (ToState 68)) (If 116 116 (Goto (ToState 68)) (Goto (ToState 0)))) (* foreign_key_parser.go:1509 *);
   (68%N, If 69 69 (Goto (ToState 189)) (If 101 101 (Goto (ToState 189)) (Goto (ToState 0)))) (* foreign_key_parser.go:1521 *);
   (69%N, If 65 65 (Goto (ToState 70)) (If 97 97 (Goto (ToState 70)) (Goto (ToState 0)))) (* foreign_key_parser.go:1533 *);
   (70%N, If 84 84 (Goto (ToState 71)) (If 116 116 (Goto (ToState 71)) (Goto (ToState 0)))) (* foreign_key_parser.go:1545 *);
   (71%N, If 67 67 (Goto (ToState 72)) (If 99 99 (Goto (ToState 72)) (Goto (ToState 0)))) (* foreign_key_parser.go:1557 *);
   (72%N, If 72 72 (Goto (ToState 73)) (If 104 104 (Goto (ToState 73)) (Goto (ToState 0)))) (* foreign_key_parser.go:1569 *);
   (73%N, If 32 32 (Goto (ToState 74)) (If 9 13 (Goto (ToState 74)) (Goto (ToState 0)))) (* foreign_key_parser.go:1581 *);
   (74%N, If 32 32 (Goto (ToState 74)) (If 70 70 (Goto (ToTr 83)) (If 80 80 (Goto (ToTr 84)) (If 83 83 (Goto (ToTr 85)) (If 102 102 (Goto (ToTr 83)) (If 112 112 (Goto (ToTr 84)) (If 115 115 (Goto (ToTr 85)) (If 9 13 (Goto (ToState 74)) (Goto (ToState 0)))))))))) (* foreign_key_parser.go:1593 *);
   (75%N, If 85 85 (Goto (ToTr 86)) (If 117 117 (Goto (ToTr 86)) (Goto (ToState 0)))) (* foreign_key_parser.go:1624 *);
   (76%N, If 76 76 (Goto (ToTr 87)) (If 108 108 (Goto (ToTr 87)) (Goto (ToState 0)))) (* foreign_key_parser.go:1643 *);
   (77%N, If 76 76 (Goto (ToTr 88)) (If 108 108 (Goto (ToTr 88)) (Goto (ToState 0)))) (* foreign_key_parser.go:1662 *);
   (78%N, If 79 79 (Goto (ToState 79)) (If 111 111 (Goto (ToState 79)) (Goto (ToState 0)))) (* foreign_key_parser.go:1731 *);
   (79%N, If 84 84 (Goto (ToState 80)) (If 116 116 (Goto (ToState 80)) (Goto (ToState 0)))) (* foreign_key_parser.go:1743 *);
   (80%N, If 32 32 (Goto (ToState 81)) (If 9 13 (Goto (ToState 81)) (Goto (ToState 0)))) (* foreign_key_parser.go:1755 *);
   (81%N, If 32 32 (Goto (ToState 81)) (If 68 68 (Goto (ToState 82)) (If 100 100 (Goto (ToState 82)) (If 9 13 (Goto (ToState 81)) (Goto (ToState 0)))))) (* foreign_key_parser.go:1767 *);
   (82%N, If 69 69 (Goto (ToState 83)) (If 101 101 (Goto (ToState 83)) (Goto (ToState 0)))) (* foreign_key_parser.go:1784 *);
   (83%N, If 70 70 (Goto (ToState 84)) (If 102 102 (Goto (ToState 84)) (Goto (ToState 0)))) (* foreign_key_parser.go:1796 *);
   (84%N, If 69 69 (Goto (ToState 85)) (If 101 101 (Goto (ToState 85)) (Goto (ToState 0)))) (* foreign_key_parser.go:1808 *);
   (85%N, If 82 82 (Goto (ToState 86)) (If 114 114 (Goto (ToState 86)) (Goto (ToState 0)))) (* foreign_key_parser.go:1820 *);
   (86%N, If 82 82 (Goto (ToState 87)) (If 114 114 (Goto (ToState 87)) (Goto (ToState 0)))) (* foreign_key_parser.go:1832 *);
   (87%N, If 65 65 (Goto (ToState 88)) (If 97 97 (Goto (ToState 88)) (Goto (ToState 0)))) (* foreign_key_parser.go:1844 *);
   (88%N, If 66 66 (Goto (ToState 89)) (If 98 98 (Goto (ToState 89)) (Goto (ToState 0)))) (* foreign_key_parser.go:1856 *);
   (89%N, If 76 76 (Goto (ToState 68)) (If 108 108 (Goto (ToState 68)) (Goto (ToState 0)))) (* foreign_key_parser.go:1868 *);
   (90%N, If 78 78 (Goto (ToState 91)) (If 110 110 (Goto (ToState 91)) (Goto (ToState 0)))) (* foreign_key_parser.go:1880 *);
   (91%N, If 32 32 (Goto (ToState 92)) (If 9 13 (Goto (ToState 92)) (Goto (ToState 0)))) (* foreign_key_parser.go:1892 *);
   (92%N, If 32 32 (Goto (ToState 92)) (If 68 68 (Goto (ToState 93)) (If 85 85 (Goto (ToState 109)) (If 100 100 (Goto (ToState 93)) (If 117 117 (Goto (ToState 109)) (If 9 13 (Goto (ToState 92)) (Goto (ToState 0)))))))) (* foreign_key_parser.go:1904 *);
   (93%N, If 69 69 (Goto (ToState 94)) (If 101 101 (Goto (ToState 94)) (Goto (ToState 0)))) (* foreign_key_parser.go:1925 *);
   (94%N, If 76 76 (Goto (ToState 95)) (If 108 108 (Goto (ToState 95)) (Goto (ToState 0)))) (* foreign_key_parser.go:1937 *);
   (95%N, If 69 69 (Goto (ToState 96)) (If 101 101 (Goto (ToState 96)) (Goto (ToState 0)))) (* foreign_key_parser.go:1949 *);
   (96%N, If 84 84 (Goto (ToState 97)) (If 116 116 (Goto (ToState 97)) (Goto (ToState 0)))) (* foreign_key_parser.go:1961 *);
   (97%N, If 69 69 (Goto (ToState 98)) (If 101 101 (Goto (ToState 98)) (Goto (ToState 0)))) (* foreign_key_parser.go:1973 *);
   (98%N, If 32 32 (Goto (ToState 99)) (If 9 13 (Goto (ToState 99)) (Goto (ToState 0)))) (* foreign_key_parser.go:1985 *);
   (99%N, If 32 32 (Goto (ToState 99)) (If 67 67 (Goto (ToTr 110)) (If 78 78 (Goto (ToTr 111)) (If 82 82 (Goto (ToTr 112)) (If 83 83 (Goto (ToTr 113)) (If 99 99 (Goto (ToTr 110)) (If 110 110 (Goto (ToTr 111)) (If 114 114 (Goto (ToTr 112)) (If 115 115 (Goto (ToTr 113)) (If 9 13 (Goto (ToState 99)) (Goto (ToState 0)))))))))))) (* foreign_key_parser.go:1997 *);
   (100%N, If 65 65 (Goto (ToTr 114)) (If 97 97 (Goto (ToTr 114)) (Goto (ToState 0)))) (* foreign_key_parser.go:2032 *);
   (101%N, If 83 83 (Goto (ToTr 115)) (If 115 115 (Goto (ToTr 115)) (Goto (ToState 0)))) (* foreign_key_parser.go:2051 *);
   (102%N, If 67 67 (Goto (ToTr 116)) (If 99 99 (Goto (ToTr 116)) (Goto (ToState 0)))) (* foreign_key_parser.go:2070 *);
   (103%N, If 65 65 (Goto (ToTr 117)) (If 97 97 (Goto (ToTr 117)) (Goto (ToState 0)))) (* foreign_key_parser.go:2089 *);
   (104%N, If 68 68 (Goto (ToTr 118)) (If 100 100 (Goto (ToTr 118)) (Goto (ToState 0)))) (* foreign_key_parser.go:2108 *);
   (105%N, If 69 69 (Goto (ToTr 119)) (If 101 101 (Goto (ToTr 119)) (Goto (ToState 0)))) (* foreign_key_parser.go:2127 *);
   (106%N, If 78 78 (Goto (ToState 107)) (If 110 110 (Goto (ToState 107)) (Goto (ToState 0)))) (* foreign_key_parser.go:2196 *);
   (107%N, If 32 32 (Goto (ToState 108)) (If 9 13 (Goto (ToState 108)) (Goto (ToState 0)))) (* foreign_key_parser.go:2208 *);
   (108%N, If 32 32 (Goto (ToState 108)) (If 85 85 (Goto (ToState 109)) (If 117 117 (Goto (ToState 109)) (If 9 13 (Goto (ToState 108)) (Goto (ToState 0)))))) (* foreign_key_parser.go:2220 *);
   (109%N, If 80 80 (Goto (ToState 110)) (If 112 112 (Goto (ToState 110)) (Goto (ToState 0)))) (* foreign_key_parser.go:2237 *);
   (110%N, If 68 68 (Goto (ToState 111)) (If 100 100 (Goto (ToState 111)) (Goto (ToState 0)))) (* foreign_key_parser.go:2249 *);
   (111%N, If 65 65 (Goto (ToState 112)) (If 97 97 (Goto (ToState 112)) (Goto (ToState 0)))) (* foreign_key_parser.go:2261 *);
   (112%N, If 84 84 (Goto (ToState 113)) (If 116 116 (Goto (ToState 113)) (Goto (ToState 0)))) (* foreign_key_parser.go:2273 *);
   (113%N, If 69 69 (Goto (ToState 114)) (If 101 101 (Goto (ToState 114)) (Goto (ToState 0)))) (* foreign_key_parser.go:2285 *);
   (114%N, If 32 32 (Goto (ToState 115)) (If 9 13 (Goto (ToState 115)) (Goto (ToState 0)))) (* foreign_key_parser.go:2297 *);
   (115%N, If 32 32 (Goto (ToState 115)) (If 67 67 (Goto (ToTr 128)) (If 78 78 (Goto (ToTr 129)) (If 82 82 (Goto (ToTr 130)) (If 83 83 (Goto (ToTr 131)) (If 99 99 (Goto (ToTr 128)) (If 110 110 (Goto (ToTr 129)) (If 114 114 (Goto (ToTr 130)) (If 115 115 (Goto (ToTr 131)) (If 9 13 (Goto (ToState 115)) (Goto (ToState 0)))))))))))) (* foreign_key_parser.go:2309 *);
   (116%N, If 65 65 (Goto (ToTr 132)) (If 97 97 (Goto (ToTr 132)) (Goto (ToState 0)))) (* foreign_key_parser.go:2344 *);
   (117%N, If 83 83 (Goto (ToTr 133)) (If 115 115 (Goto (ToTr 133)) (Goto (ToState 0)))) (* foreign_key_parser.go:2363 *);
   (118%N, If 67 67 (Goto (ToTr 134)) (If 99 99 (Goto (ToTr 134)) (Goto (ToState 0)))) (* foreign_key_parser.go:2382 *);
   (119%N, If 65 65 (Goto (ToTr 135)) (If 97 97 (Goto (ToTr 135)) (Goto (ToState 0)))) (* foreign_key_parser.go:2401 *);
   (120%N, If 68 68 (Goto (ToTr 136)) (If 100 100 (Goto (ToTr 136)) (Goto (ToState 0)))) (* foreign_key_parser.go:2420 *);
   (121%N, If 69 69 (Goto (ToTr 137)) (If 101 101 (Goto (ToTr 137)) (Goto (ToState 0)))) (* foreign_key_parser.go:2439 *);
   (122%N, If 79 79 (Goto (ToTr 138)) (If 111 111 (Goto (ToTr 138)) (Goto (ToState 0)))) (* foreign_key_parser.go:2510 *);
   (123%N, If 32 32 (Goto (ToTr 139)) (If 9 13 (Goto (ToTr 139)) (Goto (ToState 0)))) (* foreign_key_parser.go:2529 *);
   (124%N, If 32 32 (Goto (ToTr 139)) (If 65 65 (Goto (ToTr 140)) (If 97 97 (Goto (ToTr 140)) (If 9 13 (Goto (ToTr 139)) (Goto (ToState 0)))))) (* foreign_key_parser.go:2548 *);
   (125%N, If 67 67 (Goto (ToTr 141)) (If 99 99 (Goto (ToTr 141)) (Goto (ToState 0)))) (* foreign_key_parser.go:2572 *);
   (126%N, If 84 84 (Goto (ToTr 142)) (If 116 116 (Goto (ToTr 142)) (Goto (ToState 0)))) (* foreign_key_parser.go:2591 *);
   (127%N, If 73 73 (Goto (ToTr 143)) (If 105 105 (Goto (ToTr 143)) (Goto (ToState 0)))) (* foreign_key_parser.go:2610 *);
   (128%N, If 79 79 (Goto (ToTr 144)) (If 111 111 (Goto (ToTr 144)) (Goto (ToState 0)))) (* foreign_key_parser.go:2629 *);
   (129%N, If 78 78 (Goto (ToTr 137)) (If 110 110 (Goto (ToTr 137)) (Goto (ToState 0)))) (* foreign_key_parser.go:2648 *);
   (130%N, If 69 69 (Goto (ToTr 145)) (If 101 101 (Goto (ToTr 145)) (Goto (ToState 0)))) (* foreign_key_parser.go:2667 *);
   (131%N, If 83 83 (Goto (ToTr 146)) (If 115 115 (Goto (ToTr 146)) (Goto (ToState 0)))) (* foreign_key_parser.go:2686 *);
   (132%N, If 84 84 (Goto (ToTr 147)) (If 116 116 (Goto (ToTr 147)) (Goto (ToState 0)))) (* foreign_key_parser.go:2705 *);
   (133%N, If 82 82 (Goto (ToTr 148)) (If 114 114 (Goto (ToTr 148)) (Goto (ToState 0)))) (* foreign_key_parser.go:2724 *);
   (134%N, If 73 73 (Goto (ToTr 149)) (If 105 105 (Goto (ToTr 149)) (Goto (ToState 0)))) (* foreign_key_parser.go:2743 *);
   (135%N, If 67 67 (Goto (ToTr 150)) (If 99 99 (Goto (ToTr 150)) (Goto (ToState 0)))) (* foreign_key_parser.go:2762 *);
   (136%N, If 84 84 (Goto (ToTr 137)) (If 116 116 (Goto (ToTr 137)) (Goto (ToState 0)))) (* foreign_key_parser.go:2781 *);
   (137%N, If 69 69 (Goto (ToTr 151)) (If 101 101 (Goto (ToTr 151)) (Goto (ToState 0)))) (* foreign_key_parser.go:2800 *);
   (138%N, If 84 84 (Goto (ToTr 152)) (If 116 116 (Goto (ToTr 152)) (Goto (ToState 0)))) (* foreign_key_parser.go:2819 *);
   (139%N, If 32 32 (Goto (ToTr 153)) (If 9 13 (Goto (ToTr 153)) (Goto (ToState 0)))) (* foreign_key_parser.go:2838 *);
   (140%N, If 32 32 (Goto (ToTr 153)) (If 68 68 (Goto (ToTr 154)) (If 78 78 (Goto (ToTr 155)) (If 100 100 (Goto (ToTr 154)) (If 110 110 (Goto (ToTr 155)) (If 9 13 (Goto (ToTr 153)) (Goto (ToState 0)))))))) (* foreign_key_parser.go:2857 *);
   (141%N, If 69 69 (Goto (ToTr 156)) (If 101 101 (Goto (ToTr 156)) (Goto (ToState 0)))) (* foreign_key_parser.go:2885 *);
   (142%N, If 70 70 (Goto (ToTr 157)) (If 102 102 (Goto (ToTr 157)) (Goto (ToState 0)))) (* foreign_key_parser.go:2904 *);
   (143%N, If 65 65 (Goto (ToTr 158)) (If 97 97 (Goto (ToTr 158)) (Goto (ToState 0)))) (* foreign_key_parser.go:2923 *);
   (144%N, If 85 85 (Goto (ToTr 159)) (If 117 117 (Goto (ToTr 159)) (Goto (ToState 0)))) (* foreign_key_parser.go:2942 *);
   (145%N, If 76 76 (Goto (ToTr 150)) (If 108 108 (Goto (ToTr 150)) (Goto (ToState 0)))) (* foreign_key_parser.go:2961 *);
   (146%N, If 85 85 (Goto (ToTr 160)) (If 117 117 (Goto (ToTr 160)) (Goto (ToState 0)))) (* foreign_key_parser.go:2980 *);
   (147%N, If 76 76 (Goto (ToTr 161)) (If 108 108 (Goto (ToTr 161)) (Goto (ToState 0)))) (* foreign_key_parser.go:2999 *);
   (148%N, If 76 76 (Goto (ToTr 137)) (If 108 108 (Goto (ToTr 137)) (Goto (ToState 0)))) (* foreign_key_parser.go:3018 *);
   (149%N, If 79 79 (Goto (ToTr 162)) (If 111 111 (Goto (ToTr 162)) (Goto (ToState 0)))) (* foreign_key_parser.go:3037 *);
   (150%N, If 32 32 (Goto (ToTr 163)) (If 9 13 (Goto (ToTr 163)) (Goto (ToState 0)))) (* foreign_key_parser.go:3056 *);
   (151%N, If 32 32 (Goto (ToTr 163)) (If 65 65 (Goto (ToTr 164)) (If 97 97 (Goto (ToTr 164)) (If 9 13 (Goto (ToTr 163)) (Goto (ToState 0)))))) (* foreign_key_parser.go:3075 *);
   (152%N, If 67 67 (Goto (ToTr 165)) (If 99 99 (Goto (ToTr 165)) (Goto (ToState 0)))) (* foreign_key_parser.go:3099 *);
   (153%N, If 84 84 (Goto (ToTr 166)) (If 116 116 (Goto (ToTr 166)) (Goto (ToState 0)))) (* foreign_key_parser.go:3118 *);
   (154%N, If 73 73 (Goto (ToTr 167)) (If 105 105 (Goto (ToTr 167)) (Goto (ToState 0)))) (* foreign_key_parser.go:3137 *);
   (155%N, If 79 79 (Goto (ToTr 168)) (If 111 111 (Goto (ToTr 168)) (Goto (ToState 0)))) (* foreign_key_parser.go:3156 *);
   (156%N, If 78 78 (Goto (ToTr 119)) (If 110 110 (Goto (ToTr 119)) (Goto (ToState 0)))) (* foreign_key_parser.go:3175 *);
   (157%N, If 69 69 (Goto (ToTr 169)) (If 101 101 (Goto (ToTr 169)) (Goto (ToState 0)))) (* foreign_key_parser.go:3194 *);
   (158%N, If 83 83 (Goto (ToTr 170)) (If 115 115 (Goto (ToTr 170)) (Goto (ToState 0)))) (* foreign_key_parser.go:3213 *);
   (159%N, If 84 84 (Goto (ToTr 171)) (If 116 116 (Goto (ToTr 171)) (Goto (ToState 0)))) (* foreign_key_parser.go:3232 *);
   (160%N, If 82 82 (Goto (ToTr 172)) (If 114 114 (Goto (ToTr 172)) (Goto (ToState 0)))) (* foreign_key_parser.go:3251 *);
   (161%N, If 73 73 (Goto (ToTr 173)) (If 105 105 (Goto (ToTr 173)) (Goto (ToState 0)))) (* foreign_key_parser.go:3270 *);
   (162%N, If 67 67 (Goto (ToTr 174)) (If 99 99 (Goto (ToTr 174)) (Goto (ToState 0)))) (* foreign_key_parser.go:3289 *);
   (163%N, If 84 84 (Goto (ToTr 119)) (If 116 116 (Goto (ToTr 119)) (Goto (ToState 0)))) (* foreign_key_parser.go:3308 *);
   (164%N, If 69 69 (Goto (ToTr 175)) (If 101 101 (Goto (ToTr 175)) (Goto (ToState 0)))) (* foreign_key_parser.go:3327 *);
   (165%N, If 84 84 (Goto (ToTr 176)) (If 116 116 (Goto (ToTr 176)) (Goto (ToState 0)))) (* foreign_key_parser.go:3346 *);
   (166%N, If 32 32 (Goto (ToTr 177)) (If 9 13 (Goto (ToTr 177)) (Goto (ToState 0)))) (* foreign_key_parser.go:3365 *);
   (167%N, If 32 32 (Goto (ToTr 177)) (If 68 68 (Goto (ToTr 178)) (If 78 78 (Goto (ToTr 179)) (If 100 100 (Goto (ToTr 178)) (If 110 110 (Goto (ToTr 179)) (If 9 13 (Goto (ToTr 177)) (Goto (ToState 0)))))))) (* foreign_key_parser.go:3384 *);
   (168%N, If 69 69 (Goto (ToTr 180)) (If 101 101 (Goto (ToTr 180)) (Goto (ToState 0)))) (* foreign_key_parser.go:3412 *);
   (169%N, If 70 70 (Goto (ToTr 181)) (If 102 102 (Goto (ToTr 181)) (Goto (ToState 0)))) (* foreign_key_parser.go:3431 *);
   (170%N, If 65 65 (Goto (ToTr 182)) (If 97 97 (Goto (ToTr 182)) (Goto (ToState 0)))) (* foreign_key_parser.go:3450 *);
   (171%N, If 85 85 (Goto (ToTr 183)) (If 117 117 (Goto (ToTr 183)) (Goto (ToState 0)))) (* foreign_key_parser.go:3469 *);
   (172%N, If 76 76 (Goto (ToTr 174)) (If 108 108 (Goto (ToTr 174)) (Goto (ToState 0)))) (* foreign_key_parser.go:3488 *);
   (173%N, If 85 85 (Goto (ToTr 184)) (If 117 117 (Goto (ToTr 184)) (Goto (ToState 0)))) (* foreign_key_parser.go:3507 *);
   (174%N, If 76 76 (Goto (ToTr 185)) (If 108 108 (Goto (ToTr 185)) (Goto (ToState 0)))) (* foreign_key_parser.go:3526 *);
   (175%N, If 76 76 (Goto (ToTr 119)) (If 108 108 (Goto (ToTr 119)) (Goto (ToState 0)))) (* foreign_key_parser.go:3545 *);
   (176%N, If 65 65 (Goto (ToTr 186)) (If 97 97 (Goto (ToTr 186)) (Goto (ToState 0)))) (* foreign_key_parser.go:3564 *);
   (177%N, If 82 82 (Goto (ToTr 187)) (If 114 114 (Goto (ToTr 187)) (Goto (ToState 0)))) (* foreign_key_parser.go:3583 *);
   (178%N, If 84 84 (Goto (ToTr 188)) (If 116 116 (Goto (ToTr 188)) (Goto (ToState 0)))) (* foreign_key_parser.go:3602 *);
   (179%N, If 73 73 (Goto (ToTr 189)) (If 105 105 (Goto (ToTr 189)) (Goto (ToState 0)))) (* foreign_key_parser.go:3621 *);
   (180%N, If 65 65 (Goto (ToTr 87)) (If 97 97 (Goto (ToTr 87)) (Goto (ToState 0)))) (* foreign_key_parser.go:3640 *);
   (181%N, If 73 73 (Goto (ToTr 190)) (If 105 105 (Goto (ToTr 190)) (Goto (ToState 0)))) (* foreign_key_parser.go:3659 *);
   (182%N, If 77 77 (Goto (ToTr 191)) (If 109 109 (Goto (ToTr 191)) (Goto (ToState 0)))) (* foreign_key_parser.go:3678 *);
   (183%N, If 80 80 (Goto (ToTr 192)) (If 112 112 (Goto (ToTr 192)) (Goto (ToState 0)))) (* foreign_key_parser.go:3697 *);
   (184%N, If 76 76 (Goto (ToTr 193)) (If 108 108 (Goto (ToTr 193)) (Goto (ToState 0)))) (* foreign_key_parser.go:3716 *);
   (185%N, If 69 69 (Goto (ToTr 88)) (If 101 101 (Goto (ToTr 88)) (Goto (ToState 0)))) (* foreign_key_parser.go:3735 *);
   (186%N, If 32 32 (Goto (ToState 187)) (If 9 13 (Goto (ToState 187)) (Goto (ToState 0)))) (* foreign_key_parser.go:1019 *);
   (187%N, If 32 32 (Goto (ToState 187)) (If 68 68 (Goto (ToState 34)) (If 73 73 (Goto (ToState 44)) (If 77 77 (Goto (ToState 69)) (If 78 78 (Goto (ToState 78)) (If 79 79 (Goto (ToState 90)) (If 100 100 (Goto (ToState 34)) (If 105 105 (Goto (ToState 44)) (If 109 109 (Goto (ToState 69)) (If 110 110 (Goto (ToState 78)) (If 111 111 (Goto (ToState 90)) (If 9 13 (Goto (ToState 187)) (Goto (ToState 0)))))))))))))) (* foreign_key_parser.go:1032 *);
   (188%N, If 32 32 (Goto (ToTr 51)) (If 73 73 (Goto (ToState 44)) (If 105 105 (Goto (ToState 44)) (If 9 13 (Goto (ToTr 51)) (Goto (ToState 0)))))) (* foreign_key_parser.go:1189 *);
   (189%N, If 32 32 (Goto (ToState 189)) (If 9 13 (Goto (ToState 189)) (Goto (ToState 0)))) (* foreign_key_parser.go:1424 *);
   (190%N, If 32 32 (Goto (ToTr 200)) (If 9 13 (Goto (ToTr 200)) (Goto (ToState 0)))) (* foreign_key_parser.go:1681 *);
   (191%N, If 32 32 (Goto (ToState 191)) (If 68 68 (Goto (ToState 34)) (If 73 73 (Goto (ToState 44)) (If 78 78 (Goto (ToState 78)) (If 79 79 (Goto (ToState 90)) (If 100 100 (Goto (ToState 34)) (If 105 105 (Goto (ToState 44)) (If 110 110 (Goto (ToState 78)) (If 111 111 (Goto (ToState 90)) (If 9 13 (Goto (ToState 191)) (Goto (ToState 0)))))))))))) (* foreign_key_parser.go:1701 *);
   (192%N, If 32 32 (Goto (ToTr 202)) (If 9 13 (Goto (ToTr 202)) (Goto (ToState 0)))) (* foreign_key_parser.go:2146 *);
   (193%N, If 32 32 (Goto (ToState 193)) (If 68 68 (Goto (ToState 34)) (If 73 73 (Goto (ToState 44)) (If 78 78 (Goto (ToState 78)) (If 79 79 (Goto (ToState 106)) (If 100 100 (Goto (ToState 34)) (If 105 105 (Goto (ToState 44)) (If 110 110 (Goto (ToState 78)) (If 111 111 (Goto (ToState 106)) (If 9 13 (Goto (ToState 193)) (Goto (ToState 0)))))))))))) (* foreign_key_parser.go:2166 *);
   (194%N, If 32 32 (Goto (ToTr 205)) (If 9 13 (Goto (ToTr 205)) (Goto (ToState 0)))) (* foreign_key_parser.go:2458 *);
   (195%N, If 32 32 (Goto (ToState 195)) (If 68 68 (Goto (ToState 34)) (If 73 73 (Goto (ToState 44)) (If 78 78 (Goto (ToState 78)) (If 100 100 (Goto (ToState 34)) (If 105 105 (Goto (ToState 44)) (If 110 110 (Goto (ToState 78)) (If 9 13 (Goto (ToState 195)) (Goto (ToState 0)))))))))) (* foreign_key_parser.go:2478 *)].
(** internal/ddl/foreign_key_parser.go: the tr labels. *)
Definition foreign_key_trs : list (N * (list action * N)) :=
  [(15%N, ([AddToBuffer], 15%N)) (* foreign_key_parser.go:639 *);
   (16%N, ([FkColumn], 16%N)) (* foreign_key_parser.go:679 *);
   (17%N, ([FkColumn], 17%N)) (* foreign_key_parser.go:704 *);
   (18%N, ([FkColumn], 14%N)) (* foreign_key_parser.go:610 *);
   (33%N, ([AddToBuffer], 30%N)) (* foreign_key_parser.go:882 *);
   (34%N, ([FkTable], 31%N)) (* foreign_key_parser.go:913 *);
   (36%N, ([AddToBuffer], 32%N)) (* foreign_key_parser.go:949 *);
   (37%N, ([FkReferenced], 33%N)) (* foreign_key_parser.go:989 *);
   (38%N, ([FkReferenced], 186%N)) (* foreign_key_parser.go:1014 *);
   (39%N, ([FkReferenced], 31%N)) (* foreign_key_parser.go:920 *);
   (51%N, ([FkDeferrable], 188%N)) (* foreign_key_parser.go:1186 *);
   (69%N, ([FkDeferred], 189%N)) (* foreign_key_parser.go:1421 *);
   (83%N, ([AddToBuffer], 75%N)) (* foreign_key_parser.go:1620 *);
   (84%N, ([AddToBuffer], 176%N)) (* foreign_key_parser.go:3560 *);
   (85%N, ([AddToBuffer], 181%N)) (* foreign_key_parser.go:3655 *);
   (86%N, ([AddToBuffer], 76%N)) (* foreign_key_parser.go:1639 *);
   (87%N, ([AddToBuffer], 77%N)) (* foreign_key_parser.go:1658 *);
   (88%N, ([AddToBuffer], 190%N)) (* foreign_key_parser.go:1677 *);
   (110%N, ([AddToBuffer], 100%N)) (* foreign_key_parser.go:2028 *);
   (111%N, ([AddToBuffer], 149%N)) (* foreign_key_parser.go:3033 *);
   (112%N, ([AddToBuffer], 157%N)) (* foreign_key_parser.go:3190 *);
   (113%N, ([AddToBuffer], 164%N)) (* foreign_key_parser.go:3323 *);
   (114%N, ([AddToBuffer], 101%N)) (* foreign_key_parser.go:2047 *);
   (115%N, ([AddToBuffer], 102%N)) (* foreign_key_parser.go:2066 *);
   (116%N, ([AddToBuffer], 103%N)) (* foreign_key_parser.go:2085 *);
   (117%N, ([AddToBuffer], 104%N)) (* foreign_key_parser.go:2104 *);
   (118%N, ([AddToBuffer], 105%N)) (* foreign_key_parser.go:2123 *);
   (119%N, ([AddToBuffer], 192%N)) (* foreign_key_parser.go:2142 *);
   (128%N, ([AddToBuffer], 116%N)) (* foreign_key_parser.go:2340 *);
   (129%N, ([AddToBuffer], 122%N)) (* foreign_key_parser.go:2506 *);
   (130%N, ([AddToBuffer], 130%N)) (* foreign_key_parser.go:2663 *);
   (131%N, ([AddToBuffer], 137%N)) (* foreign_key_parser.go:2796 *);
   (132%N, ([AddToBuffer], 117%N)) (* foreign_key_parser.go:2359 *);
   (133%N, ([AddToBuffer], 118%N)) (* foreign_key_parser.go:2378 *);
   (134%N, ([AddToBuffer], 119%N)) (* foreign_key_parser.go:2397 *);
   (135%N, ([AddToBuffer], 120%N)) (* foreign_key_parser.go:2416 *);
   (136%N, ([AddToBuffer], 121%N)) (* foreign_key_parser.go:2435 *);
   (137%N, ([AddToBuffer], 194%N)) (* foreign_key_parser.go:2454 *);
   (138%N, ([AddToBuffer], 123%N)) (* foreign_key_parser.go:2525 *);
   (139%N, ([AddToBuffer], 124%N)) (* foreign_key_parser.go:2544 *);
   (140%N, ([AddToBuffer], 125%N)) (* foreign_key_parser.go:2568 *);
   (141%N, ([AddToBuffer], 126%N)) (* foreign_key_parser.go:2587 *);
   (142%N, ([AddToBuffer], 127%N)) (* foreign_key_parser.go:2606 *);
   (143%N, ([AddToBuffer], 128%N)) (* foreign_key_parser.go:2625 *);
   (144%N, ([AddToBuffer], 129%N)) (* foreign_key_parser.go:2644 *);
   (145%N, ([AddToBuffer], 131%N)) (* foreign_key_parser.go:2682 *);
   (146%N, ([AddToBuffer], 132%N)) (* foreign_key_parser.go:2701 *);
   (147%N, ([AddToBuffer], 133%N)) (* foreign_key_parser.go:2720 *);
   (148%N, ([AddToBuffer], 134%N)) (* foreign_key_parser.go:2739 *);
   (149%N, ([AddToBuffer], 135%N)) (* foreign_key_parser.go:2758 *);
   (150%N, ([AddToBuffer], 136%N)) (* foreign_key_parser.go:2777 *);
   (151%N, ([AddToBuffer], 138%N)) (* foreign_key_parser.go:2815 *);
   (152%N, ([AddToBuffer], 139%N)) (* foreign_key_parser.go:2834 *);
   (153%N, ([AddToBuffer], 140%N)) (* foreign_key_parser.go:2853 *);
   (154%N, ([AddToBuffer], 141%N)) (* foreign_key_parser.go:2881 *);
   (155%N, ([AddToBuffer], 146%N)) (* foreign_key_parser.go:2976 *);
   (156%N, ([AddToBuffer], 142%N)) (* foreign_key_parser.go:2900 *);
   (157%N, ([AddToBuffer], 143%N)) (* foreign_key_parser.go:2919 *);
   (158%N, ([AddToBuffer], 144%N)) (* foreign_key_parser.go:2938 *);
   (159%N, ([AddToBuffer], 145%N)) (* foreign_key_parser.go:2957 *);
   (160%N, ([AddToBuffer], 147%N)) (* foreign_key_parser.go:2995 *);
   (161%N, ([AddToBuffer], 148%N)) (* foreign_key_parser.go:3014 *);
   (162%N, ([AddToBuffer], 150%N)) (* foreign_key_parser.go:3052 *);
   (163%N, ([AddToBuffer], 151%N)) (* foreign_key_parser.go:3071 *);
   (164%N, ([AddToBuffer], 152%N)) (* foreign_key_parser.go:3095 *);
   (165%N, ([AddToBuffer], 153%N)) (* foreign_key_parser.go:3114 *);
   (166%N, ([AddToBuffer], 154%N)) (* foreign_key_parser.go:3133 *);
   (167%N, ([AddToBuffer], 155%N)) (* foreign_key_parser.go:3152 *);
   (168%N, ([AddToBuffer], 156%N)) (* foreign_key_parser.go:3171 *);
   (169%N, ([AddToBuffer], 158%N)) (* foreign_key_parser.go:3209 *);
   (170%N, ([AddToBuffer], 159%N)) (* foreign_key_parser.go:3228 *);
   (171%N, ([AddToBuffer], 160%N)) (* foreign_key_parser.go:3247 *);
   (172%N, ([AddToBuffer], 161%N)) (* foreign_key_parser.go:3266 *);
   (173%N, ([AddToBuffer], 162%N)) (* foreign_key_parser.go:3285 *);
   (174%N, ([AddToBuffer], 163%N)) (* foreign_key_parser.go:3304 *);
   (175%N, ([AddToBuffer], 165%N)) (* foreign_key_parser.go:3342 *);
   (176%N, ([AddToBuffer], 166%N)) (* foreign_key_parser.go:3361 *);
   (177%N, ([AddToBuffer], 167%N)) (* foreign_key_parser.go:3380 *);
   (178%N, ([AddToBuffer], 168%N)) (* foreign_key_parser.go:3408 *);
   (179%N, ([AddToBuffer], 173%N)) (* foreign_key_parser.go:3503 *);
   (180%N, ([AddToBuffer], 169%N)) (* foreign_key_parser.go:3427 *);
   (181%N, ([AddToBuffer], 170%N)) (* foreign_key_parser.go:3446 *);
   (182%N, ([AddToBuffer], 171%N)) (* foreign_key_parser.go:3465 *);
   (183%N, ([AddToBuffer], 172%N)) (* foreign_key_parser.go:3484 *);
   (184%N, ([AddToBuffer], 174%N)) (* foreign_key_parser.go:3522 *);
   (185%N, ([AddToBuffer], 175%N)) (* foreign_key_parser.go:3541 *);
   (186%N, ([AddToBuffer], 177%N)) (* foreign_key_parser.go:3579 *);
   (187%N, ([AddToBuffer], 178%N)) (* foreign_key_parser.go:3598 *);
   (188%N, ([AddToBuffer], 179%N)) (* foreign_key_parser.go:3617 *);
   (189%N, ([AddToBuffer], 180%N)) (* foreign_key_parser.go:3636 *);
   (190%N, ([AddToBuffer], 182%N)) (* foreign_key_parser.go:3674 *);
   (191%N, ([AddToBuffer], 183%N)) (* foreign_key_parser.go:3693 *);
   (192%N, ([AddToBuffer], 184%N)) (* foreign_key_parser.go:3712 *);
   (193%N, ([AddToBuffer], 185%N)) (* foreign_key_parser.go:3731 *);
   (200%N, ([FkMatch], 191%N)) (* foreign_key_parser.go:1696 *);
   (202%N, ([FkOnDelete], 193%N)) (* foreign_key_parser.go:2161 *);
   (205%N, ([FkOnUpdate], 195%N)) (* foreign_key_parser.go:2473 *)].
(** internal/ddl/foreign_key_parser.go: the actions at the end of the input. *)
Definition foreign_key_eof : list (N * list action) :=
  [(190%N, [FkMatch]) (* foreign_key_parser.go:3950 *);
   (192%N, [FkOnDelete]) (* foreign_key_parser.go:3956 *);
   (194%N, [FkOnUpdate]) (* foreign_key_parser.go:3962 *)].
(** internal/ddl/foreign_key_parser.go:10-12: start 1, error 0, first final 186. *)
Definition foreign_key_machine : machine := Machine foreign_key_states foreign_key_trs foreign_key_eof 186.

(** internal/ddl/index_parser.go:155-1177: the states. *)
Definition index_states : list (N * tree) :=
  [(1%N, If 32 32 (Goto (ToState 1)) (If 67 67 (Goto (ToState 2)) (If 99 99 (Goto (ToState 2)) (If 9 13 (Goto (ToState 1)) (Goto (ToState 0)))))) (* index_parser.go:155 *);
   (2%N, If 82 82 (Goto (ToState 3)) (If 114 114 (Goto (ToState 3)) (Goto (ToState 0)))) (* index_parser.go:176 *);
   (3%N, If 69 69 (Goto (ToState 4)) (If 101 101 (Goto (ToState 4)) (Goto (ToState 0)))) (* index_parser.go:188 *);
   (4%N, If 65 65 (Goto (ToState 5)) (If 97 97 (Goto (ToState 5)) (Goto (ToState 0)))) (* index_parser.go:200 *);
   (5%N, If 84 84 (Goto (ToState 6)) (If 116 116 (Goto (ToState 6)) (Goto (ToState 0)))) (* index_parser.go:212 *);
   (6%N, If 69 69 (Goto (ToState 7)) (If 101 101 (Goto (ToState 7)) (Goto (ToState 0)))) (* index_parser.go:224 *);
   (7%N, If 32 32 (Goto (ToState 8)) (If 9 13 (Goto (ToState 8)) (Goto (ToState 0)))) (* index_parser.go:236 *);
   (8%N, If 32 32 (Goto (ToState 8)) (If 73 73 (Goto (ToState 9)) (If 85 85 (Goto (ToState 46)) (If 105 105 (Goto (ToState 9)) (If 117 117 (Goto (ToState 46)) (If 9 13 (Goto (ToState 8)) (Goto (ToState 0)))))))) (* index_parser.go:248 *);
   (9%N, If 78 78 (Goto (ToState 10)) (If 110 110 (Goto (ToState 10)) (Goto (ToState 0)))) (* index_parser.go:269 *);
   (10%N, If 68 68 (Goto (ToState 11)) (If 100 100 (Goto (ToState 11)) (Goto (ToState 0)))) (* index_parser.go:281 *);
   (11%N, If 69 69 (Goto (ToState 12)) (If 101 101 (Goto (ToState 12)) (Goto (ToState 0)))) (* index_parser.go:293 *);
   (12%N, If 88 88 (Goto (ToState 13)) (If 120 120 (Goto (ToState 13)) (Goto (ToState 0)))) (* index_parser.go:305 *);
   (13%N, If 32 32 (Goto (ToState 14)) (If 9 13 (Goto (ToState 14)) (Goto (ToState 0)))) (* index_parser.go:317 *);
   (14%N, If 32 32 (Goto (ToState 14)) (If 0 64 (If 9 13 (Goto (ToState 14)) (Goto (ToState 0))) (If 91 255 (If 97 122 (Goto (ToTr 16)) (Goto (ToState 0))) (Goto (ToTr 16))))) (* index_parser.go:329 *);
   (15%N, If 32 32 (Goto (ToTr 17)) (If 95 95 (Goto (ToTr 16)) (If 0 47 (If 9 13 (Goto (ToTr 17)) (Goto (ToState 0))) (If 58 255 (If 91 255 (If 97 122 (Goto (ToTr 16)) (Goto (ToState 0))) (If 65 255 (Goto (ToTr 16)) (Goto (ToState 0)))) (Goto (ToTr 16)))))) (* index_parser.go:356 *);
   (16%N, If 32 32 (Goto (ToState 16)) (If 79 79 (Goto (ToState 17)) (If 111 111 (Goto (ToState 17)) (If 9 13 (Goto (ToState 16)) (Goto (ToState 0)))))) (* index_parser.go:393 *);
   (17%N, If 78 78 (Goto (ToState 18)) (If 110 110 (Goto (ToState 18)) (Goto (ToState 0)))) (* index_parser.go:411 *);
   (18%N, If 32 32 (Goto (ToState 19)) (If 9 13 (Goto (ToState 19)) (Goto (ToState 0)))) (* index_parser.go:423 *);
   (19%N, If 32 32 (Goto (ToState 19)) (If 0 64 (If 9 13 (Goto (ToState 19)) (Goto (ToState 0))) (If 91 255 (If 97 122 (Goto (ToTr 22)) (Goto (ToState 0))) (Goto (ToTr 22))))) (* index_parser.go:435 *);
   (20%N, If 32 32 (Goto (ToTr 23)) (If 95 95 (Goto (ToTr 22)) (If 0 47 (If 9 13 (Goto (ToTr 23)) (Goto (ToState 0))) (If 58 255 (If 91 255 (If 97 122 (Goto (ToTr 22)) (Goto (ToState 0))) (If 65 255 (Goto (ToTr 22)) (Goto (ToState 0)))) (Goto (ToTr 22)))))) (* index_parser.go:462 *);
   (21%N, If 32 32 (Goto (ToState 21)) (If 40 40 (Goto (ToState 22)) (If 85 85 (Goto (ToState 38)) (If 117 117 (Goto (ToState 38)) (If 9 13 (Goto (ToState 21)) (Goto (ToState 0))))))) (* index_parser.go:499 *);
   (22%N, If 32 32 (Goto (ToState 22)) (If 40 40 (Goto (ToTr 27)) (If 0 64 (If 9 13 (Goto (ToState 22)) (Goto (ToState 0))) (If 91 255 (If 97 122 (Goto (ToTr 28)) (Goto (ToState 0))) (Goto (ToTr 28)))))) (* index_parser.go:519 *);
   (23%N, If 41 41 (Goto (ToState 0)) (Goto (ToTr 29))) (* index_parser.go:549 *);
   (24%N, If 41 41 (Goto (ToTr 30)) (Goto (ToTr 29))) (* index_parser.go:565 *);
   (25%N, If 32 32 (Goto (ToTr 31)) (If 41 41 (Goto (ToTr 32)) (If 44 44 (Goto (ToTr 33)) (If 9 13 (Goto (ToTr 31)) (Goto (ToState 0)))))) (* index_parser.go:581 *);
   (26%N, If 32 32 (Goto (ToState 26)) (If 41 41 (Goto (ToState 53)) (If 44 44 (Goto (ToState 33)) (If 0 64 (If 9 13 (Goto (ToState 26)) (Goto (ToState 0))) (If 91 255 (If 97 122 (Goto (ToTr 37)) (Goto (ToState 0))) (Goto (ToTr 37))))))) (* index_parser.go:613 *);
   (27%N, If 72 72 (Goto (ToState 28)) (If 104 104 (Goto (ToState 28)) (Goto (ToState 0)))) (* index_parser.go:691 *);
   (28%N, If 69 69 (Goto (ToState 29)) (If 101 101 (Goto (ToState 29)) (Goto (ToState 0)))) (* index_parser.go:703 *);
   (29%N, If 82 82 (Goto (ToState 30)) (If 114 114 (Goto (ToState 30)) (Goto (ToState 0)))) (* index_parser.go:715 *);
   (30%N, If 69 69 (Goto (ToState 31)) (If 101 101 (Goto (ToState 31)) (Goto (ToState 0)))) (* index_parser.go:727 *);
   (31%N, If 32 32 (Goto (ToState 32)) (If 9 13 (Goto (ToState 32)) (Goto (ToState 0)))) (* index_parser.go:739 *);
   (32%N, Goto (ToTr 43)) (* index_parser.go:751 *);
   (33%N, If 32 32 (Goto (ToState 33)) (If 0 64 (If 9 13 (Goto (ToState 33)) (Goto (ToState 0))) (If 91 255 (If 97 122 (Goto (ToTr 44)) (Goto (ToState 0))) (Goto (ToTr 44))))) (* index_parser.go:791 *);
   (34%N, If 32 32 (Goto (ToTr 45)) (If 41 41 (Goto (ToTr 46)) (If 44 44 (Goto (ToTr 47)) (If 95 95 (Goto (ToTr 44)) (If 0 47 (If 9 13 (Goto (ToTr 45)) (Goto (ToState 0))) (If 58 255 (If 91 255 (If 97 122 (Goto (ToTr 44)) (Goto (ToState 0))) (If 65 255 (Goto (ToTr 44)) (Goto (ToState 0)))) (Goto (ToTr 44)))))))) (* index_parser.go:819 *);
   (35%N, If 32 32 (Goto (ToTr 48)) (If 41 41 (Goto (ToTr 49)) (If 44 44 (Goto (ToTr 50)) (If 95 95 (Goto (ToTr 37)) (If 0 47 (If 9 13 (Goto (ToTr 48)) (Goto (ToState 0))) (If 58 255 (If 91 255 (If 97 122 (Goto (ToTr 37)) (Goto (ToState 0))) (If 65 255 (Goto (ToTr 37)) (Goto (ToState 0)))) (Goto (ToTr 37)))))))) (* index_parser.go:859 *);
   (36%N, If 32 32 (Goto (ToState 36)) (If 41 41 (Goto (ToState 53)) (If 44 44 (Goto (ToState 33)) (If 9 13 (Goto (ToState 36)) (Goto (ToState 0)))))) (* index_parser.go:900 *);
   (37%N, If 32 32 (Goto (ToTr 45)) (If 40 40 (Goto (ToTr 29)) (If 41 41 (Goto (ToTr 46)) (If 44 44 (Goto (ToTr 47)) (If 95 95 (Goto (ToTr 28)) (If 0 47 (If 9 13 (Goto (ToTr 45)) (Goto (ToState 0))) (If 58 255 (If 91 255 (If 97 122 (Goto (ToTr 28)) (Goto (ToState 0))) (If 65 255 (Goto (ToTr 28)) (Goto (ToState 0)))) (Goto (ToTr 28))))))))) (* index_parser.go:924 *);
   (38%N, If 83 83 (Goto (ToState 39)) (If 115 115 (Goto (ToState 39)) (Goto (ToState 0)))) (* index_parser.go:960 *);
   (39%N, If 73 73 (Goto (ToState 40)) (If 105 105 (Goto (ToState 40)) (Goto (ToState 0)))) (* index_parser.go:972 *);
   (40%N, If 78 78 (Goto (ToState 41)) (If 110 110 (Goto (ToState 41)) (Goto (ToState 0)))) (* index_parser.go:984 *);
   (41%N, If 71 71 (Goto (ToState 42)) (If 103 103 (Goto (ToState 42)) (Goto (ToState 0)))) (* index_parser.go:996 *);
   (42%N, If 32 32 (Goto (ToState 43)) (If 9 13 (Goto (ToState 43)) (Goto (ToState 0)))) (* index_parser.go:1008 *);
   (43%N, If 32 32 (Goto (ToState 43)) (If 0 64 (If 9 13 (Goto (ToState 43)) (Goto (ToState 0))) (If 91 255 (If 97 122 (Goto (ToTr 57)) (Goto (ToState 0))) (Goto (ToTr 57))))) (* index_parser.go:1020 *);
   (44%N, If 32 32 (Goto (ToTr 58)) (If 95 95 (Goto (ToTr 57)) (If 0 47 (If 9 13 (Goto (ToTr 58)) (Goto (ToState 0))) (If 58 255 (If 91 255 (If 97 122 (Goto (ToTr 57)) (Goto (ToState 0))) (If 65 255 (Goto (ToTr 57)) (Goto (ToState 0)))) (Goto (ToTr 57)))))) (* index_parser.go:1047 *);
   (45%N, If 32 32 (Goto (ToState 45)) (If 40 40 (Goto (ToState 22)) (If 9 13 (Goto (ToState 45)) (Goto (ToState 0))))) (* index_parser.go:1084 *);
   (46%N, If 78 78 (Goto (ToState 47)) (If 110 110 (Goto (ToState 47)) (Goto (ToState 0)))) (* index_parser.go:1100 *);
   (47%N, If 73 73 (Goto (ToState 48)) (If 105 105 (Goto (ToState 48)) (Goto (ToState 0)))) (* index_parser.go:1112 *);
   (48%N, If 81 81 (Goto (ToState 49)) (If 113 113 (Goto (ToState 49)) (Goto (ToState 0)))) (* index_parser.go:1124 *);
   (49%N, If 85 85 (Goto (ToState 50)) (If 117 117 (Goto (ToState 50)) (Goto (ToState 0)))) (* index_parser.go:1136 *);
   (50%N, If 69 69 (Goto (ToTr 64)) (If 101 101 (Goto (ToTr 64)) (Goto (ToState 0)))) (* index_parser.go:1148 *);
   (51%N, If 32 32 (Goto (ToState 52)) (If 9 13 (Goto (ToState 52)) (Goto (ToState 0)))) (* index_parser.go:1164 *);
   (52%N, If 32 32 (Goto (ToState 52)) (If 73 73 (Goto (ToState 9)) (If 105 105 (Goto (ToState 9)) (If 9 13 (Goto (ToState 52)) (Goto (ToState 0)))))) (* index_parser.go:1177 *);
   (53%N, If 32 32 (Goto (ToState 54)) (If 9 13 (Goto (ToState 54)) (Goto (ToState 0)))) (* index_parser.go:661 *);
   (54%N, If 32 32 (Goto (ToState 54)) (If 87 87 (Goto (ToState 27)) (If 119 119 (Goto (ToState 27)) (If 9 13 (Goto (ToState 54)) (Goto (ToState 0)))))) (* index_parser.go:674 *);
   (55%N, Goto (ToTr 43)) (* index_parser.go:763 *)].
(** internal/ddl/index_parser.go: the tr labels. *)
Definition index_trs : list (N * (list action * N)) :=
  [(16%N, ([AddToBuffer], 15%N)) (* index_parser.go:352 *);
   (17%N, ([IxName], 16%N)) (* index_parser.go:388 *);
   (22%N, ([AddToBuffer], 20%N)) (* index_parser.go:458 *);
   (23%N, ([IxTable], 21%N)) (* index_parser.go:494 *);
   (27%N, ([AddToBuffer], 23%N)) (* index_parser.go:545 *);
   (28%N, ([AddToBuffer], 37%N)) (* index_parser.go:920 *);
   (29%N, ([AddToBuffer], 24%N)) (* index_parser.go:561 *);
   (30%N, ([AddToBuffer], 25%N)) (* index_parser.go:577 *);
   (31%N, ([IxExpression], 26%N)) (* index_parser.go:601 *);
   (32%N, ([IxExpression], 53%N)) (* index_parser.go:642 *);
   (33%N, ([IxExpression], 33%N)) (* index_parser.go:772 *);
   (37%N, ([AddToBuffer], 35%N)) (* index_parser.go:855 *);
   (43%N, ([AddToBuffer], 55%N)) (* index_parser.go:759 *);
   (44%N, ([AddToBuffer], 34%N)) (* index_parser.go:815 *);
   (45%N, ([IxColumn], 26%N)) (* index_parser.go:608 *);
   (46%N, ([IxColumn], 53%N)) (* index_parser.go:649 *);
   (47%N, ([IxColumn], 33%N)) (* index_parser.go:779 *);
   (48%N, ([IxOpClass], 36%N)) (* index_parser.go:895 *);
   (49%N, ([IxOpClass], 53%N)) (* index_parser.go:656 *);
   (50%N, ([IxOpClass], 33%N)) (* index_parser.go:786 *);
   (57%N, ([AddToBuffer], 44%N)) (* index_parser.go:1043 *);
   (58%N, ([IxUsing], 45%N)) (* index_parser.go:1079 *);
   (64%N, ([IxUnique], 51%N)) (* index_parser.go:1161 *)].
(** internal/ddl/index_parser.go: the actions at the end of the input. *)
Definition index_eof : list (N * list action) :=
  [(55%N, [IxWhere]) (* index_parser.go:1256 *)].
(** internal/ddl/index_parser.go:10-12: start 1, error 0, first final 53. *)
Definition index_machine : machine := Machine index_states index_trs index_eof 53.

(** internal/ddl/trigger_parser.go:417-3171: the states. *)
Definition trigger_states : list (N * tree) :=
  [(1%N, If 32 32 (Goto (ToState 1)) (If 67 67 (Goto (ToState 2)) (If 99 99 (Goto (ToState 2)) (If 9 13 (Goto (ToState 1)) (Goto (ToState 0)))))) (* trigger_parser.go:417 *);
   (2%N, If 82 82 (Goto (ToState 3)) (If 114 114 (Goto (ToState 3)) (Goto (ToState 0)))) (* trigger_parser.go:438 *);
   (3%N, If 69 69 (Goto (ToState 4)) (If 101 101 (Goto (ToState 4)) (Goto (ToState 0)))) (* trigger_parser.go:450 *);
   (4%N, If 65 65 (Goto (ToState 5)) (If 97 97 (Goto (ToState 5)) (Goto (ToState 0)))) (* trigger_parser.go:462 *);
   (5%N, If 84 84 (Goto (ToState 6)) (If 116 116 (Goto (ToState 6)) (Goto (ToState 0)))) (* trigger_parser.go:474 *);
   (6%N, If 69 69 (Goto (ToState 7)) (If 101 101 (Goto (ToState 7)) (Goto (ToState 0)))) (* trigger_parser.go:486 *);
   (7%N, If 32 32 (Goto (ToState 8)) (If 9 13 (Goto (ToState 8)) (Goto (ToState 0)))) (* trigger_parser.go:498 *);
   (8%N, If 32 32 (Goto (ToState 8)) (If 67 67 (Goto (ToState 9)) (If 84 84 (Goto (ToState 20)) (If 99 99 (Goto (ToState 9)) (If 116 116 (Goto (ToState 20)) (If 9 13 (Goto (ToState 8)) (Goto (ToState 0)))))))) (* trigger_parser.go:510 *);
   (9%N, If 79 79 (Goto (ToState 10)) (If 111 111 (Goto (ToState 10)) (Goto (ToState 0)))) (* trigger_parser.go:531 *);
   (10%N, If 78 78 (Goto (ToState 11)) (If 110 110 (Goto (ToState 11)) (Goto (ToState 0)))) (* trigger_parser.go:543 *);
   (11%N, If 83 83 (Goto (ToState 12)) (If 115 115 (Goto (ToState 12)) (Goto (ToState 0)))) (* trigger_parser.go:555 *);
   (12%N, If 84 84 (Goto (ToState 13)) (If 116 116 (Goto (ToState 13)) (Goto (ToState 0)))) (* trigger_parser.go:567 *);
   (13%N, If 82 82 (Goto (ToState 14)) (If 114 114 (Goto (ToState 14)) (Goto (ToState 0)))) (* trigger_parser.go:579 *);
   (14%N, If 65 65 (Goto (ToState 15)) (If 97 97 (Goto (ToState 15)) (Goto (ToState 0)))) (* trigger_parser.go:591 *);
   (15%N, If 73 73 (Goto (ToState 16)) (If 105 105 (Goto (ToState 16)) (Goto (ToState 0)))) (* trigger_parser.go:603 *);
   (16%N, If 78 78 (Goto (ToState 17)) (If 110 110 (Goto (ToState 17)) (Goto (ToState 0)))) (* trigger_parser.go:615 *);
   (17%N, If 84 84 (Goto (ToTr 19)) (If 116 116 (Goto (ToTr 19)) (Goto (ToState 0)))) (* trigger_parser.go:627 *);
   (18%N, If 32 32 (Goto (ToState 19)) (If 9 13 (Goto (ToState 19)) (Goto (ToState 0)))) (* trigger_parser.go:643 *);
   (19%N, If 32 32 (Goto (ToState 19)) (If 84 84 (Goto (ToState 20)) (If 116 116 (Goto (ToState 20)) (If 9 13 (Goto (ToState 19)) (Goto (ToState 0)))))) (* trigger_parser.go:656 *);
   (20%N, If 82 82 (Goto (ToState 21)) (If 114 114 (Goto (ToState 21)) (Goto (ToState 0)))) (* trigger_parser.go:673 *);
   (21%N, If 73 73 (Goto (ToState 22)) (If 105 105 (Goto (ToState 22)) (Goto (ToState 0)))) (* trigger_parser.go:685 *);
   (22%N, If 71 71 (Goto (ToState 23)) (If 103 103 (Goto (ToState 23)) (Goto (ToState 0)))) (* trigger_parser.go:697 *);
   (23%N, If 71 71 (Goto (ToState 24)) (If 103 103 (Goto (ToState 24)) (Goto (ToState 0)))) (* trigger_parser.go:709 *);
   (24%N, If 69 69 (Goto (ToState 25)) (If 101 101 (Goto (ToState 25)) (Goto (ToState 0)))) (* trigger_parser.go:721 *);
   (25%N, If 82 82 (Goto (ToState 26)) (If 114 114 (Goto (ToState 26)) (Goto (ToState 0)))) (* trigger_parser.go:733 *);
   (26%N, If 32 32 (Goto (ToState 27)) (If 9 13 (Goto (ToState 27)) (Goto (ToState 0)))) (* trigger_parser.go:745 *);
   (27%N, If 32 32 (Goto (ToState 27)) (If 0 64 (If 9 13 (Goto (ToState 27)) (Goto (ToState 0))) (If 91 255 (If 97 122 (Goto (ToTr 28)) (Goto (ToState 0))) (Goto (ToTr 28))))) (* trigger_parser.go:757 *);
   (28%N, If 32 32 (Goto (ToTr 29)) (If 95 95 (Goto (ToTr 28)) (If 0 47 (If 9 13 (Goto (ToTr 29)) (Goto (ToState 0))) (If 58 255 (If 91 255 (If 97 122 (Goto (ToTr 28)) (Goto (ToState 0))) (If 65 255 (Goto (ToTr 28)) (Goto (ToState 0)))) (Goto (ToTr 28)))))) (* trigger_parser.go:784 *);
   (29%N, If 32 32 (Goto (ToState 29)) (If 65 65 (Goto (ToTr 31)) (If 66 66 (Goto (ToTr 32)) (If 73 73 (Goto (ToTr 33)) (If 97 97 (Goto (ToTr 31)) (If 98 98 (Goto (ToTr 32)) (If 105 105 (Goto (ToTr 33)) (If 9 13 (Goto (ToState 29)) (Goto (ToState 0)))))))))) (* trigger_parser.go:821 *);
   (30%N, If 70 70 (Goto (ToTr 34)) (If 102 102 (Goto (ToTr 34)) (Goto (ToState 0)))) (* trigger_parser.go:853 *);
   (31%N, If 84 84 (Goto (ToTr 35)) (If 116 116 (Goto (ToTr 35)) (Goto (ToState 0)))) (* trigger_parser.go:872 *);
   (32%N, If 69 69 (Goto (ToTr 36)) (If 101 101 (Goto (ToTr 36)) (Goto (ToState 0)))) (* trigger_parser.go:891 *);
   (33%N, If 82 82 (Goto (ToTr 37)) (If 114 114 (Goto (ToTr 37)) (Goto (ToState 0)))) (* trigger_parser.go:910 *);
   (34%N, If 32 32 (Goto (ToTr 38)) (If 9 13 (Goto (ToTr 38)) (Goto (ToState 0)))) (* trigger_parser.go:929 *);
   (35%N, If 32 32 (Goto (ToState 35)) (If 68 68 (Goto (ToState 36)) (If 73 73 (Goto (ToState 148)) (If 84 84 (Goto (ToState 153)) (If 85 85 (Goto (ToState 160)) (If 100 100 (Goto (ToState 36)) (If 105 105 (Goto (ToState 148)) (If 116 116 (Goto (ToState 153)) (If 117 117 (Goto (ToState 160)) (If 9 13 (Goto (ToState 35)) (Goto (ToState 0)))))))))))) (* trigger_parser.go:949 *);
   (36%N, If 69 69 (Goto (ToState 37)) (If 101 101 (Goto (ToState 37)) (Goto (ToState 0)))) (* trigger_parser.go:979 *);
   (37%N, If 76 76 (Goto (ToState 38)) (If 108 108 (Goto (ToState 38)) (Goto (ToState 0)))) (* trigger_parser.go:991 *);
   (38%N, If 69 69 (Goto (ToState 39)) (If 101 101 (Goto (ToState 39)) (Goto (ToState 0)))) (* trigger_parser.go:1003 *);
   (39%N, If 84 84 (Goto (ToState 40)) (If 116 116 (Goto (ToState 40)) (Goto (ToState 0)))) (* trigger_parser.go:1015 *);
   (40%N, If 69 69 (Goto (ToTr 48)) (If 101 101 (Goto (ToTr 48)) (Goto (ToState 0)))) (* trigger_parser.go:1027 *);
   (41%N, If 32 32 (Goto (ToState 42)) (If 9 13 (Goto (ToState 42)) (Goto (ToState 0)))) (* trigger_parser.go:1051 *);
   (42%N, If 32 32 (Goto (ToState 42)) (If 79 79 (Goto (ToState 43)) (If 111 111 (Goto (ToState 43)) (If 9 13 (Goto (ToState 42)) (Goto (ToState 0)))))) (* trigger_parser.go:1064 *);
   (43%N, If 78 78 (Goto (ToState 44)) (If 82 82 (Goto (ToState 147)) (If 110 110 (Goto (ToState 44)) (If 114 114 (Goto (ToState 147)) (Goto (ToState 0)))))) (* trigger_parser.go:1081 *);
   (44%N, If 32 32 (Goto (ToState 45)) (If 9 13 (Goto (ToState 45)) (Goto (ToState 0)))) (* trigger_parser.go:1097 *);
   (45%N, If 32 32 (Goto (ToState 45)) (If 0 64 (If 9 13 (Goto (ToState 45)) (Goto (ToState 0))) (If 91 255 (If 97 122 (Goto (ToTr 54)) (Goto (ToState 0))) (Goto (ToTr 54))))) (* trigger_parser.go:1109 *);
   (46%N, If 32 32 (Goto (ToTr 55)) (If 95 95 (Goto (ToTr 54)) (If 0 47 (If 9 13 (Goto (ToTr 55)) (Goto (ToState 0))) (If 58 255 (If 91 255 (If 97 122 (Goto (ToTr 54)) (Goto (ToState 0))) (If 65 255 (Goto (ToTr 54)) (Goto (ToState 0)))) (Goto (ToTr 54)))))) (* trigger_parser.go:1136 *);
   (47%N, If 32 32 (Goto (ToState 47)) (If 68 68 (Goto (ToState 48)) (If 69 69 (Goto (ToState 60)) (If 70 70 (Goto (ToState 87)) (If 73 73 (Goto (ToState 108)) (If 78 78 (Goto (ToState 135)) (If 100 100 (Goto (ToState 48)) (If 101 101 (Goto (ToState 60)) (If 102 102 (Goto (ToState 87)) (If 105 105 (Goto (ToState 108)) (If 110 110 (Goto (ToState 135)) (If 9 13 (Goto (ToState 47)) (Goto (ToState 0)))))))))))))) (* trigger_parser.go:1173 *);
   (48%N, If 69 69 (Goto (ToState 49)) (If 101 101 (Goto (ToState 49)) (Goto (ToState 0)))) (* trigger_parser.go:1207 *);
   (49%N, If 70 70 (Goto (ToState 50)) (If 102 102 (Goto (ToState 50)) (Goto (ToState 0)))) (* trigger_parser.go:1219 *);
   (50%N, If 69 69 (Goto (ToState 51)) (If 101 101 (Goto (ToState 51)) (Goto (ToState 0)))) (* trigger_parser.go:1231 *);
   (51%N, If 82 82 (Goto (ToState 52)) (If 114 114 (Goto (ToState 52)) (Goto (ToState 0)))) (* trigger_parser.go:1243 *);
   (52%N, If 82 82 (Goto (ToState 53)) (If 114 114 (Goto (ToState 53)) (Goto (ToState 0)))) (* trigger_parser.go:1255 *);
   (53%N, If 65 65 (Goto (ToState 54)) (If 97 97 (Goto (ToState 54)) (Goto (ToState 0)))) (* trigger_parser.go:1267 *);
   (54%N, If 66 66 (Goto (ToState 55)) (If 98 98 (Goto (ToState 55)) (Goto (ToState 0)))) (* trigger_parser.go:1279 *);
   (55%N, If 76 76 (Goto (ToState 56)) (If 108 108 (Goto (ToState 56)) (Goto (ToState 0)))) (* trigger_parser.go:1291 *);
   (56%N, If 69 69 (Goto (ToState 57)) (If 101 101 (Goto (ToState 57)) (Goto (ToState 0)))) (* trigger_parser.go:1303 *);
   (57%N, If 32 32 (Goto (ToTr 71)) (If 9 13 (Goto (ToTr 71)) (Goto (ToState 0)))) (* trigger_parser.go:1315 *);
   (58%N, If 32 32 (Goto (ToTr 72)) (If 73 73 (Goto (ToState 108)) (If 105 105 (Goto (ToState 108)) (If 9 13 (Goto (ToTr 72)) (Goto (ToState 0)))))) (* trigger_parser.go:1331 *);
   (59%N, If 32 32 (Goto (ToTr 72)) (If 69 69 (Goto (ToState 60)) (If 70 70 (Goto (ToState 87)) (If 73 73 (Goto (ToState 108)) (If 101 101 (Goto (ToState 60)) (If 102 102 (Goto (ToState 87)) (If 105 105 (Goto (ToState 108)) (If 9 13 (Goto (ToTr 72)) (Goto (ToState 0)))))))))) (* trigger_parser.go:1353 *);
   (60%N, If 88 88 (Goto (ToState 61)) (If 120 120 (Goto (ToState 61)) (Goto (ToState 0)))) (* trigger_parser.go:1379 *);
   (61%N, If 69 69 (Goto (ToState 62)) (If 101 101 (Goto (ToState 62)) (Goto (ToState 0)))) (* trigger_parser.go:1391 *);
   (62%N, If 67 67 (Goto (ToState 63)) (If 99 99 (Goto (ToState 63)) (Goto (ToState 0)))) (* trigger_parser.go:1403 *);
   (63%N, If 85 85 (Goto (ToState 64)) (If 117 117 (Goto (ToState 64)) (Goto (ToState 0)))) (* trigger_parser.go:1415 *);
   (64%N, If 84 84 (Goto (ToState 65)) (If 116 116 (Goto (ToState 65)) (Goto (ToState 0)))) (* trigger_parser.go:1427 *);
   (65%N, If 69 69 (Goto (ToState 66)) (If 101 101 (Goto (ToState 66)) (Goto (ToState 0)))) (* trigger_parser.go:1439 *);
   (66%N, If 32 32 (Goto (ToState 67)) (If 9 13 (Goto (ToState 67)) (Goto (ToState 0)))) (* trigger_parser.go:1451 *);
   (67%N, If 32 32 (Goto (ToState 67)) (If 70 70 (Goto (ToState 68)) (If 80 80 (Goto (ToState 79)) (If 102 102 (Goto (ToState 68)) (If 112 112 (Goto (ToState 79)) (If 9 13 (Goto (ToState 67)) (Goto (ToState 0)))))))) (* trigger_parser.go:1463 *);
   (68%N, If 85 85 (Goto (ToState 69)) (If 117 117 (Goto (ToState 69)) (Goto (ToState 0)))) (* trigger_parser.go:1484 *);
   (69%N, If 78 78 (Goto (ToState 70)) (If 110 110 (Goto (ToState 70)) (Goto (ToState 0)))) (* trigger_parser.go:1496 *);
   (70%N, If 67 67 (Goto (ToState 71)) (If 99 99 (Goto (ToState 71)) (Goto (ToState 0)))) (* trigger_parser.go:1508 *);
   (71%N, If 84 84 (Goto (ToState 72)) (If 116 116 (Goto (ToState 72)) (Goto (ToState 0)))) (* trigger_parser.go:1520 *);
   (72%N, If 73 73 (Goto (ToState 73)) (If 105 105 (Goto (ToState 73)) (Goto (ToState 0)))) (* trigger_parser.go:1532 *);
   (73%N, If 79 79 (Goto (ToState 74)) (If 111 111 (Goto (ToState 74)) (Goto (ToState 0)))) (* trigger_parser.go:1544 *);
   (74%N, If 78 78 (Goto (ToState 75)) (If 110 110 (Goto (ToState 75)) (Goto (ToState 0)))) (* trigger_parser.go:1556 *);
   (75%N, If 32 32 (Goto (ToState 76)) (If 9 13 (Goto (ToState 76)) (Goto (ToState 0)))) (* trigger_parser.go:1568 *);
   (76%N, If 32 32 (Goto (ToState 76)) (If 0 64 (If 9 13 (Goto (ToState 76)) (Goto (ToState 0))) (If 91 255 (If 97 122 (Goto (ToTr 90)) (Goto (ToState 0))) (Goto (ToTr 90))))) (* trigger_parser.go:1580 *);
   (77%N, If 40 40 (Goto (ToTr 91)) (If 95 95 (Goto (ToTr 90)) (If 0 64 (If 48 57 (Goto (ToTr 90)) (Goto (ToState 0))) (If 91 255 (If 97 122 (Goto (ToTr 90)) (Goto (ToState 0))) (Goto (ToTr 90)))))) (* trigger_parser.go:1607 *);
   (78%N, If 41 41 (Goto (ToState 186)) (Goto (ToState 0))) (* trigger_parser.go:1639 *);
   (79%N, If 82 82 (Goto (ToState 80)) (If 114 114 (Goto (ToState 80)) (Goto (ToState 0)))) (* trigger_parser.go:1661 *);
   (80%N, If 79 79 (Goto (ToState 81)) (If 111 111 (Goto (ToState 81)) (Goto (ToState 0)))) (* trigger_parser.go:1673 *);
   (81%N, If 67 67 (Goto (ToState 82)) (If 99 99 (Goto (ToState 82)) (Goto (ToState 0)))) (* trigger_parser.go:1685 *);
   (82%N, If 69 69 (Goto (ToState 83)) (If 101 101 (Goto (ToState 83)) (Goto (ToState 0)))) (* trigger_parser.go:1697 *);
   (83%N, If 68 68 (Goto (ToState 84)) (If 100 100 (Goto (ToState 84)) (Goto (ToState 0)))) (* trigger_parser.go:1709 *);
   (84%N, If 85 85 (Goto (ToState 85)) (If 117 117 (Goto (ToState 85)) (Goto (ToState 0)))) (* trigger_parser.go:1721 *);
   (85%N, If 82 82 (Goto (ToState 86)) (If 114 114 (Goto (ToState 86)) (Goto (ToState 0)))) (* trigger_parser.go:1733 *);
   (86%N, If 69 69 (Goto (ToState 75)) (If 101 101 (Goto (ToState 75)) (Goto (ToState 0)))) (* trigger_parser.go:1745 *);
   (87%N, If 79 79 (Goto (ToState 88)) (If 111 111 (Goto (ToState 88)) (Goto (ToState 0)))) (* trigger_parser.go:1757 *);
   (88%N, If 82 82 (Goto (ToState 89)) (If 114 114 (Goto (ToState 89)) (Goto (ToState 0)))) (* trigger_parser.go:1769 *);
   (89%N, If 32 32 (Goto (ToState 90)) (If 9 13 (Goto (ToState 90)) (Goto (ToState 0)))) (* trigger_parser.go:1781 *);
   (90%N, If 32 32 (Goto (ToState 90)) (If 69 69 (Goto (ToState 91)) (If 82 82 (Goto (ToState 96)) (If 83 83 (Goto (ToState 100)) (If 101 101 (Goto (ToState 91)) (If 114 114 (Goto (ToState 96)) (If 115 115 (Goto (ToState 100)) (If 9 13 (Goto (ToState 90)) (Goto (ToState 0)))))))))) (* trigger_parser.go:1793 *);
   (91%N, If 65 65 (Goto (ToState 92)) (If 97 97 (Goto (ToState 92)) (Goto (ToState 0)))) (* trigger_parser.go:1818 *);
   (92%N, If 67 67 (Goto (ToState 93)) (If 99 99 (Goto (ToState 93)) (Goto (ToState 0)))) (* trigger_parser.go:1830 *);
   (93%N, If 72 72 (Goto (ToState 94)) (If 104 104 (Goto (ToState 94)) (Goto (ToState 0)))) (* trigger_parser.go:1842 *);
   (94%N, If 32 32 (Goto (ToState 95)) (If 9 13 (Goto (ToState 95)) (Goto (ToState 0)))) (* trigger_parser.go:1854 *);
   (95%N, If 32 32 (Goto (ToState 95)) (If 82 82 (Goto (ToState 96)) (If 83 83 (Goto (ToState 100)) (If 114 114 (Goto (ToState 96)) (If 115 115 (Goto (ToState 100)) (If 9 13 (Goto (ToState 95)) (Goto (ToState 0)))))))) (* trigger_parser.go:1866 *);
   (96%N, If 79 79 (Goto (ToState 97)) (If 111 111 (Goto (ToState 97)) (Goto (ToState 0)))) (* trigger_parser.go:1887 *);
   (97%N, If 87 87 (Goto (ToTr 111)) (If 119 119 (Goto (ToTr 111)) (Goto (ToState 0)))) (* trigger_parser.go:1899 *);
   (98%N, If 32 32 (Goto (ToState 99)) (If 9 13 (Goto (ToState 99)) (Goto (ToState 0)))) (* trigger_parser.go:1915 *);
   (99%N, If 32 32 (Goto (ToState 99)) (If 69 69 (Goto (ToState 60)) (If 101 101 (Goto (ToState 60)) (If 9 13 (Goto (ToState 99)) (Goto (ToState 0)))))) (* trigger_parser.go:1928 *);
   (100%N, If 84 84 (Goto (ToState 101)) (If 116 116 (Goto (ToState 101)) (Goto (ToState 0)))) (* trigger_parser.go:1945 *);
   (101%N, If 65 65 (Goto (ToState 102)) (If 97 97 (Goto (ToState 102)) (Goto (ToState 0)))) (* trigger_parser.go:1957 *);
   (102%N, If 84 84 (Goto (ToState 103)) (If 116 116 (Goto (ToState 103)) (Goto (ToState 0)))) (* trigger_parser.go:1969 *);
   (103%N, If 69 69 (Goto (ToState 104)) (If 101 101 (Goto (ToState 104)) (Goto (ToState 0)))) (* trigger_parser.go:1981 *);
   (104%N, If 77 77 (Goto (ToState 105)) (If 109 109 (Goto (ToState 105)) (Goto (ToState 0)))) (* trigger_parser.go:1993 *);
   (105%N, If 69 69 (Goto (ToState 106)) (If 101 101 (Goto (ToState 106)) (Goto (ToState 0)))) (* trigger_parser.go:2005 *);
   (106%N, If 78 78 (Goto (ToState 107)) (If 110 110 (Goto (ToState 107)) (Goto (ToState 0)))) (* trigger_parser.go:2017 *);
   (107%N, If 84 84 (Goto (ToState 98)) (If 116 116 (Goto (ToState 98)) (Goto (ToState 0)))) (* trigger_parser.go:2029 *);
   (108%N, If 78 78 (Goto (ToState 109)) (If 110 110 (Goto (ToState 109)) (Goto (ToState 0)))) (* trigger_parser.go:2041 *);
   (109%N, If 73 73 (Goto (ToState 110)) (If 105 105 (Goto (ToState 110)) (Goto (ToState 0)))) (* trigger_parser.go:2053 *);
   (110%N, If 84 84 (Goto (ToState 111)) (If 116 116 (Goto (ToState 111)) (Goto (ToState 0)))) (* trigger_parser.go:2065 *);
   (111%N, If 73 73 (Goto (ToState 112)) (If 105 105 (Goto (ToState 112)) (Goto (ToState 0)))) (* trigger_parser.go:2077 *);
   (112%N, If 65 65 (Goto (ToState 113)) (If 97 97 (Goto (ToState 113)) (Goto (ToState 0)))) (* trigger_parser.go:2089 *);
   (113%N, If 76 76 (Goto (ToState 114)) (If 108 108 (Goto (ToState 114)) (Goto (ToState 0)))) (* trigger_parser.go:2101 *);
   (114%N, If 76 76 (Goto (ToState 115)) (If 108 108 (Goto (ToState 115)) (Goto (ToState 0)))) (* trigger_parser.go:2113 *);
   (115%N, If 89 89 (Goto (ToState 116)) (If 121 121 (Goto (ToState 116)) (Goto (ToState 0)))) (* trigger_parser.go:2125 *);
   (116%N, If 32 32 (Goto (ToState 117)) (If 9 13 (Goto (ToState 117)) (Goto (ToState 0)))) (* trigger_parser.go:2137 *);
   (117%N, If 32 32 (Goto (ToState 117)) (If 68 68 (Goto (ToState 118)) (If 73 73 (Goto (ToState 127)) (If 100 100 (Goto (ToState 118)) (If 105 105 (Goto (ToState 127)) (If 9 13 (Goto (ToState 117)) (Goto (ToState 0)))))))) (* trigger_parser.go:2149 *);
   (118%N, If 69 69 (Goto (ToState 119)) (If 101 101 (Goto (ToState 119)) (Goto (ToState 0)))) (* trigger_parser.go:2170 *);
   (119%N, If 70 70 (Goto (ToState 120)) (If 102 102 (Goto (ToState 120)) (Goto (ToState 0)))) (* trigger_parser.go:2182 *);
   (120%N, If 69 69 (Goto (ToState 121)) (If 101 101 (Goto (ToState 121)) (Goto (ToState 0)))) (* trigger_parser.go:2194 *);
   (121%N, If 82 82 (Goto (ToState 122)) (If 114 114 (Goto (ToState 122)) (Goto (ToState 0)))) (* trigger_parser.go:2206 *);
   (122%N, If 82 82 (Goto (ToState 123)) (If 114 114 (Goto (ToState 123)) (Goto (ToState 0)))) (* trigger_parser.go:2218 *);
   (123%N, If 69 69 (Goto (ToState 124)) (If 101 101 (Goto (ToState 124)) (Goto (ToState 0)))) (* trigger_parser.go:2230 *);
   (124%N, If 68 68 (Goto (ToTr 138)) (If 100 100 (Goto (ToTr 138)) (Goto (ToState 0)))) (* trigger_parser.go:2242 *);
   (125%N, If 32 32 (Goto (ToState 126)) (If 9 13 (Goto (ToState 126)) (Goto (ToState 0)))) (* trigger_parser.go:2258 *);
   (126%N, If 32 32 (Goto (ToState 126)) (If 69 69 (Goto (ToState 60)) (If 70 70 (Goto (ToState 87)) (If 101 101 (Goto (ToState 60)) (If 102 102 (Goto (ToState 87)) (If 9 13 (Goto (ToState 126)) (Goto (ToState 0)))))))) (* trigger_parser.go:2271 *);
   (127%N, If 77 77 (Goto (ToState 128)) (If 109 109 (Goto (ToState 128)) (Goto (ToState 0)))) (* trigger_parser.go:2292 *);
   (128%N, If 77 77 (Goto (ToState 129)) (If 109 109 (Goto (ToState 129)) (Goto (ToState 0)))) (* trigger_parser.go:2304 *);
   (129%N, If 69 69 (Goto (ToState 130)) (If 101 101 (Goto (ToState 130)) (Goto (ToState 0)))) (* trigger_parser.go:2316 *);
   (130%N, If 68 68 (Goto (ToState 131)) (If 100 100 (Goto (ToState 131)) (Goto (ToState 0)))) (* trigger_parser.go:2328 *);
   (131%N, If 73 73 (Goto (ToState 132)) (If 105 105 (Goto (ToState 132)) (Goto (ToState 0)))) (* trigger_parser.go:2340 *);
   (132%N, If 65 65 (Goto (ToState 133)) (If 97 97 (Goto (ToState 133)) (Goto (ToState 0)))) (* trigger_parser.go:2352 *);
   (133%N, If 84 84 (Goto (ToState 134)) (If 116 116 (Goto (ToState 134)) (Goto (ToState 0)))) (* trigger_parser.go:2364 *);
   (134%N, If 69 69 (Goto (ToState 125)) (If 101 101 (Goto (ToState 125)) (Goto (ToState 0)))) (* trigger_parser.go:2376 *);
   (135%N, If 79 79 (Goto (ToState 136)) (If 111 111 (Goto (ToState 136)) (Goto (ToState 0)))) (* trigger_parser.go:2388 *);
   (136%N, If 84 84 (Goto (ToState 137)) (If 116 116 (Goto (ToState 137)) (Goto (ToState 0)))) (* trigger_parser.go:2400 *);
   (137%N, If 32 32 (Goto (ToState 138)) (If 9 13 (Goto (ToState 138)) (Goto (ToState 0)))) (* trigger_parser.go:2412 *);
   (138%N, If 32 32 (Goto (ToState 138)) (If 68 68 (Goto (ToState 139)) (If 100 100 (Goto (ToState 139)) (If 9 13 (Goto (ToState 138)) (Goto (ToState 0)))))) (* trigger_parser.go:2424 *);
   (139%N, If 69 69 (Goto (ToState 140)) (If 101 101 (Goto (ToState 140)) (Goto (ToState 0)))) (* trigger_parser.go:2441 *);
   (140%N, If 70 70 (Goto (ToState 141)) (If 102 102 (Goto (ToState 141)) (Goto (ToState 0)))) (* trigger_parser.go:2453 *);
   (141%N, If 69 69 (Goto (ToState 142)) (If 101 101 (Goto (ToState 142)) (Goto (ToState 0)))) (* trigger_parser.go:2465 *);
   (142%N, If 82 82 (Goto (ToState 143)) (If 114 114 (Goto (ToState 143)) (Goto (ToState 0)))) (* trigger_parser.go:2477 *);
   (143%N, If 82 82 (Goto (ToState 144)) (If 114 114 (Goto (ToState 144)) (Goto (ToState 0)))) (* trigger_parser.go:2489 *);
   (144%N, If 65 65 (Goto (ToState 145)) (If 97 97 (Goto (ToState 145)) (Goto (ToState 0)))) (* trigger_parser.go:2501 *);
   (145%N, If 66 66 (Goto (ToState 146)) (If 98 98 (Goto (ToState 146)) (Goto (ToState 0)))) (* trigger_parser.go:2513 *);
   (146%N, If 76 76 (Goto (ToState 134)) (If 108 108 (Goto (ToState 134)) (Goto (ToState 0)))) (* trigger_parser.go:2525 *);
   (147%N, If 32 32 (Goto (ToState 35)) (If 9 13 (Goto (ToState 35)) (Goto (ToState 0)))) (* trigger_parser.go:2537 *);
   (148%N, If 78 78 (Goto (ToState 149)) (If 110 110 (Goto (ToState 149)) (Goto (ToState 0)))) (* trigger_parser.go:2549 *);
   (149%N, If 83 83 (Goto (ToState 150)) (If 115 115 (Goto (ToState 150)) (Goto (ToState 0)))) (* trigger_parser.go:2561 *);
   (150%N, If 69 69 (Goto (ToState 151)) (If 101 101 (Goto (ToState 151)) (Goto (ToState 0)))) (* trigger_parser.go:2573 *);
   (151%N, If 82 82 (Goto (ToState 152)) (If 114 114 (Goto (ToState 152)) (Goto (ToState 0)))) (* trigger_parser.go:2585 *);
   (152%N, If 84 84 (Goto (ToTr 163)) (If 116 116 (Goto (ToTr 163)) (Goto (ToState 0)))) (* trigger_parser.go:2597 *);
   (153%N, If 82 82 (Goto (ToState 154)) (If 114 114 (Goto (ToState 154)) (Goto (ToState 0)))) (* trigger_parser.go:2609 *);
   (154%N, If 85 85 (Goto (ToState 155)) (If 117 117 (Goto (ToState 155)) (Goto (ToState 0)))) (* trigger_parser.go:2621 *);
   (155%N, If 78 78 (Goto (ToState 156)) (If 110 110 (Goto (ToState 156)) (Goto (ToState 0)))) (* trigger_parser.go:2633 *);
   (156%N, If 67 67 (Goto (ToState 157)) (If 99 99 (Goto (ToState 157)) (Goto (ToState 0)))) (* trigger_parser.go:2645 *);
   (157%N, If 65 65 (Goto (ToState 158)) (If 97 97 (Goto (ToState 158)) (Goto (ToState 0)))) (* trigger_parser.go:2657 *);
   (158%N, If 84 84 (Goto (ToState 159)) (If 116 116 (Goto (ToState 159)) (Goto (ToState 0)))) (* trigger_parser.go:2669 *);
   (159%N, If 69 69 (Goto (ToTr 170)) (If 101 101 (Goto (ToTr 170)) (Goto (ToState 0)))) (* trigger_parser.go:2681 *);
   (160%N, If 80 80 (Goto (ToState 161)) (If 112 112 (Goto (ToState 161)) (Goto (ToState 0)))) (* trigger_parser.go:2693 *);
   (161%N, If 68 68 (Goto (ToState 162)) (If 100 100 (Goto (ToState 162)) (Goto (ToState 0)))) (* trigger_parser.go:2705 *);
   (162%N, If 65 65 (Goto (ToState 163)) (If 97 97 (Goto (ToState 163)) (Goto (ToState 0)))) (* trigger_parser.go:2717 *);
   (163%N, If 84 84 (Goto (ToState 164)) (If 116 116 (Goto (ToState 164)) (Goto (ToState 0)))) (* trigger_parser.go:2729 *);
   (164%N, If 69 69 (Goto (ToTr 175)) (If 101 101 (Goto (ToTr 175)) (Goto (ToState 0)))) (* trigger_parser.go:2741 *);
   (165%N, If 32 32 (Goto (ToState 166)) (If 9 13 (Goto (ToState 166)) (Goto (ToState 0)))) (* trigger_parser.go:2757 *);
   (166%N, If 32 32 (Goto (ToState 166)) (If 79 79 (Goto (ToState 167)) (If 111 111 (Goto (ToState 167)) (If 9 13 (Goto (ToState 166)) (Goto (ToState 0)))))) (* trigger_parser.go:2770 *);
   (167%N, If 70 70 (Goto (ToState 168)) (If 78 78 (Goto (ToState 44)) (If 82 82 (Goto (ToState 147)) (If 102 102 (Goto (ToState 168)) (If 110 110 (Goto (ToState 44)) (If 114 114 (Goto (ToState 147)) (Goto (ToState 0)))))))) (* trigger_parser.go:2787 *);
   (168%N, If 32 32 (Goto (ToState 169)) (If 9 13 (Goto (ToState 169)) (Goto (ToState 0)))) (* trigger_parser.go:2807 *);
   (169%N, If 32 32 (Goto (ToState 169)) (If 0 64 (If 9 13 (Goto (ToState 169)) (Goto (ToState 0))) (If 91 255 (If 97 122 (Goto (ToTr 180)) (Goto (ToState 0))) (Goto (ToTr 180))))) (* trigger_parser.go:2826 *);
   (170%N, If 32 32 (Goto (ToTr 181)) (If 44 44 (Goto (ToTr 182)) (If 95 95 (Goto (ToTr 180)) (If 0 47 (If 9 13 (Goto (ToTr 181)) (Goto (ToState 0))) (If 58 255 (If 91 255 (If 97 122 (Goto (ToTr 180)) (Goto (ToState 0))) (If 65 255 (Goto (ToTr 180)) (Goto (ToState 0)))) (Goto (ToTr 180))))))) (* trigger_parser.go:2854 *);
   (171%N, If 32 32 (Goto (ToState 171)) (If 44 44 (Goto (ToState 169)) (If 79 79 (Goto (ToState 43)) (If 111 111 (Goto (ToState 43)) (If 9 13 (Goto (ToState 171)) (Goto (ToState 0))))))) (* trigger_parser.go:2893 *);
   (172%N, If 69 69 (Goto (ToTr 184)) (If 101 101 (Goto (ToTr 184)) (Goto (ToState 0)))) (* trigger_parser.go:2919 *);
   (173%N, If 70 70 (Goto (ToTr 185)) (If 102 102 (Goto (ToTr 185)) (Goto (ToState 0)))) (* trigger_parser.go:2938 *);
   (174%N, If 79 79 (Goto (ToTr 186)) (If 111 111 (Goto (ToTr 186)) (Goto (ToState 0)))) (* trigger_parser.go:2957 *);
   (175%N, If 82 82 (Goto (ToTr 187)) (If 114 114 (Goto (ToTr 187)) (Goto (ToState 0)))) (* trigger_parser.go:2976 *);
   (176%N, If 69 69 (Goto (ToTr 37)) (If 101 101 (Goto (ToTr 37)) (Goto (ToState 0)))) (* trigger_parser.go:2995 *);
   (177%N, If 78 78 (Goto (ToTr 188)) (If 110 110 (Goto (ToTr 188)) (Goto (ToState 0)))) (* trigger_parser.go:3014 *);
   (178%N, If 83 83 (Goto (ToTr 189)) (If 115 115 (Goto (ToTr 189)) (Goto (ToState 0)))) (* trigger_parser.go:3033 *);
   (179%N, If 84 84 (Goto (ToTr 190)) (If 116 116 (Goto (ToTr 190)) (Goto (ToState 0)))) (* trigger_parser.go:3052 *);
   (180%N, If 69 69 (Goto (ToTr 191)) (If 101 101 (Goto (ToTr 191)) (Goto (ToState 0)))) (* trigger_parser.go:3071 *);
   (181%N, If 65 65 (Goto (ToTr 192)) (If 97 97 (Goto (ToTr 192)) (Goto (ToState 0)))) (* trigger_parser.go:3090 *);
   (182%N, If 68 68 (Goto (ToTr 193)) (If 100 100 (Goto (ToTr 193)) (Goto (ToState 0)))) (* trigger_parser.go:3109 *);
   (183%N, If 32 32 (Goto (ToTr 194)) (If 9 13 (Goto (ToTr 194)) (Goto (ToState 0)))) (* trigger_parser.go:3128 *);
   (184%N, If 32 32 (Goto (ToTr 194)) (If 79 79 (Goto (ToTr 195)) (If 111 111 (Goto (ToTr 195)) (If 9 13 (Goto (ToTr 194)) (Goto (ToState 0)))))) (* trigger_parser.go:3147 *);
   (185%N, If 70 70 (Goto (ToTr 37)) (If 102 102 (Goto (ToTr 37)) (Goto (ToState 0)))) (* trigger_parser.go:3171 *);
   (186%N, If 32 32 (Goto (ToState 186)) (If 9 13 (Goto (ToState 186)) (Goto (ToState 0)))) (* trigger_parser.go:1649 *)].
(** internal/ddl/trigger_parser.go: the tr labels. *)
Definition trigger_trs : list (N * (list action * N)) :=
  [(19%N, ([TgConstraint], 18%N)) (* trigger_parser.go:640 *);
   (28%N, ([AddToBuffer], 28%N)) (* trigger_parser.go:780 *);
   (29%N, ([TgName], 29%N)) (* trigger_parser.go:816 *);
   (31%N, ([AddToBuffer], 30%N)) (* trigger_parser.go:849 *);
   (32%N, ([AddToBuffer], 172%N)) (* trigger_parser.go:2915 *);
   (33%N, ([AddToBuffer], 177%N)) (* trigger_parser.go:3010 *);
   (34%N, ([AddToBuffer], 31%N)) (* trigger_parser.go:868 *);
   (35%N, ([AddToBuffer], 32%N)) (* trigger_parser.go:887 *);
   (36%N, ([AddToBuffer], 33%N)) (* trigger_parser.go:906 *);
   (37%N, ([AddToBuffer], 34%N)) (* trigger_parser.go:925 *);
   (38%N, ([TgWhen], 35%N)) (* trigger_parser.go:944 *);
   (48%N, ([TgDelete], 41%N)) (* trigger_parser.go:1040 *);
   (54%N, ([AddToBuffer], 46%N)) (* trigger_parser.go:1132 *);
   (55%N, ([TgTable], 47%N)) (* trigger_parser.go:1168 *);
   (71%N, ([TgDeferrable], 58%N)) (* trigger_parser.go:1328 *);
   (72%N, ([TgDeferrable], 59%N)) (* trigger_parser.go:1350 *);
   (90%N, ([AddToBuffer], 77%N)) (* trigger_parser.go:1603 *);
   (91%N, ([TgFunction], 78%N)) (* trigger_parser.go:1634 *);
   (111%N, ([TgEachRow], 98%N)) (* trigger_parser.go:1912 *);
   (138%N, ([TgDeferred], 125%N)) (* trigger_parser.go:2255 *);
   (163%N, ([TgInsert], 41%N)) (* trigger_parser.go:1044 *);
   (170%N, ([TgTruncate], 41%N)) (* trigger_parser.go:1048 *);
   (175%N, ([TgUpdate], 165%N)) (* trigger_parser.go:2754 *);
   (180%N, ([AddToBuffer], 170%N)) (* trigger_parser.go:2850 *);
   (181%N, ([TgColumn], 171%N)) (* trigger_parser.go:2888 *);
   (182%N, ([TgColumn], 169%N)) (* trigger_parser.go:2821 *);
   (184%N, ([AddToBuffer], 173%N)) (* trigger_parser.go:2934 *);
   (185%N, ([AddToBuffer], 174%N)) (* trigger_parser.go:2953 *);
   (186%N, ([AddToBuffer], 175%N)) (* trigger_parser.go:2972 *);
   (187%N, ([AddToBuffer], 176%N)) (* trigger_parser.go:2991 *);
   (188%N, ([AddToBuffer], 178%N)) (* trigger_parser.go:3029 *);
   (189%N, ([AddToBuffer], 179%N)) (* trigger_parser.go:3048 *);
   (190%N, ([AddToBuffer], 180%N)) (* trigger_parser.go:3067 *);
   (191%N, ([AddToBuffer], 181%N)) (* trigger_parser.go:3086 *);
   (192%N, ([AddToBuffer], 182%N)) (* trigger_parser.go:3105 *);
   (193%N, ([AddToBuffer], 183%N)) (* trigger_parser.go:3124 *);
   (194%N, ([AddToBuffer], 184%N)) (* trigger_parser.go:3143 *);
   (195%N, ([AddToBuffer], 185%N)) (* trigger_parser.go:3167 *)].
(** internal/ddl/trigger_parser.go: the actions at the end of the input. *)
Definition trigger_eof : list (N * list action) :=
  [].
(** internal/ddl/trigger_parser.go:10-12: start 1, error 0, first final 186. *)
Definition trigger_machine : machine := Machine trigger_states trigger_trs trigger_eof 186.
