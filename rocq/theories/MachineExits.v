(** GENERATED by tools/ragel2coq.py; do not edit.  Proof artefact: from each state a
    byte on a way to a final state (checked in ParseError.v). *)
From stdpp Require Import list numbers.
Local Open Scope Z_scope.

Definition check_exits : list (N * Z) :=
  [(1%N, 67); (2%N, 72); (3%N, 69); (4%N, 67); (5%N, 75); (6%N, 40); (7%N, 41); (8%N, 41); (9%N, 41); (10%N, 41); (11%N, 41); (12%N, 41); (13%N, 41); (14%N, 41); (15%N, 41); (16%N, 41); (17%N, 41); (18%N, 9); (19%N, 41); (20%N, 41); (21%N, 41); (22%N, 41); (23%N, 41); (24%N, 41); (25%N, 41); (26%N, 41); (27%N, 41); (28%N, 41); (29%N, 41); (30%N, 41); (31%N, 41); (32%N, 41); (33%N, 41); (34%N, 41); (35%N, 41); (36%N, 41); (37%N, 41); (38%N, 41); (39%N, 41); (40%N, 41); (41%N, 41); (42%N, 41); (43%N, 41); (44%N, 41); (45%N, 41); (46%N, 41); (47%N, 41); (48%N, 41); (49%N, 41); (50%N, 41); (51%N, 41); (52%N, 41); (53%N, 41); (54%N, 41); (55%N, 41)].
Definition foreign_key_exits : list (N * Z) :=
  [(1%N, 70); (2%N, 79); (3%N, 82); (4%N, 69); (5%N, 73); (6%N, 71); (7%N, 78); (8%N, 9); (9%N, 75); (10%N, 69); (11%N, 89); (12%N, 9); (13%N, 40); (14%N, 65); (15%N, 41); (16%N, 41); (17%N, 9); (18%N, 82); (19%N, 69); (20%N, 70); (21%N, 69); (22%N, 82); (23%N, 69); (24%N, 78); (25%N, 67); (26%N, 69); (27%N, 83); (28%N, 9); (29%N, 65); (30%N, 40); (31%N, 65); (32%N, 41); (33%N, 41); (34%N, 69); (35%N, 70); (36%N, 69); (37%N, 82); (38%N, 82); (39%N, 65); (40%N, 66); (41%N, 76); (42%N, 69); (43%N, 9); (44%N, 78); (45%N, 73); (46%N, 84); (47%N, 73); (48%N, 65); (49%N, 76); (50%N, 76); (51%N, 89); (52%N, 9); (53%N, 68); (54%N, 69); (55%N, 70); (56%N, 69); (57%N, 82); (58%N, 82); (59%N, 69); (60%N, 68); (61%N, 77); (62%N, 77); (63%N, 69); (64%N, 68); (65%N, 73); (66%N, 65); (67%N, 84); (68%N, 69); (69%N, 65); (70%N, 84); (71%N, 67); (72%N, 72); (73%N, 9); (74%N, 70); (75%N, 85); (76%N, 76); (77%N, 76); (78%N, 79); (79%N, 84); (80%N, 9); (81%N, 68); (82%N, 69); (83%N, 70); (84%N, 69); (85%N, 82); (86%N, 82); (87%N, 65); (88%N, 66); (89%N, 76); (90%N, 78); (91%N, 9); (92%N, 68); (93%N, 69); (94%N, 76); (95%N, 69); (96%N, 84); (97%N, 69); (98%N, 9); (99%N, 67); (100%N, 65); (101%N, 83); (102%N, 67); (103%N, 65); (104%N, 68); (105%N, 69); (106%N, 78); (107%N, 9); (108%N, 85); (109%N, 80); (110%N, 68); (111%N, 65); (112%N, 84); (113%N, 69); (114%N, 9); (115%N, 67); (116%N, 65); (117%N, 83); (118%N, 67); (119%N, 65); (120%N, 68); (121%N, 69); (122%N, 79); (123%N, 9); (124%N, 65); (125%N, 67); (126%N, 84); (127%N, 73); (128%N, 79); (129%N, 78); (130%N, 69); (131%N, 83); (132%N, 84); (133%N, 82); (134%N, 73); (135%N, 67); (136%N, 84); (137%N, 69); (138%N, 84); (139%N, 9); (140%N, 78); (141%N, 69); (142%N, 70); (143%N, 65); (144%N, 85); (145%N, 76); (146%N, 85); (147%N, 76); (148%N, 76); (149%N, 79); (150%N, 9); (151%N, 65); (152%N, 67); (153%N, 84); (154%N, 73); (155%N, 79); (156%N, 78); (157%N, 69); (158%N, 83); (159%N, 84); (160%N, 82); (161%N, 73); (162%N, 67); (163%N, 84); (164%N, 69); (165%N, 84); (166%N, 9); (167%N, 78); (168%N, 69); (169%N, 70); (170%N, 65); (171%N, 85); (172%N, 76); (173%N, 85); (174%N, 76); (175%N, 76); (176%N, 65); (177%N, 82); (178%N, 84); (179%N, 73); (180%N, 65); (181%N, 73); (182%N, 77); (183%N, 80); (184%N, 76); (185%N, 69)].
Definition index_exits : list (N * Z) :=
  [(1%N, 67); (2%N, 82); (3%N, 69); (4%N, 65); (5%N, 84); (6%N, 69); (7%N, 9); (8%N, 73); (9%N, 78); (10%N, 68); (11%N, 69); (12%N, 88); (13%N, 9); (14%N, 65); (15%N, 9); (16%N, 79); (17%N, 78); (18%N, 9); (19%N, 65); (20%N, 9); (21%N, 40); (22%N, 65); (23%N, 0); (24%N, 41); (25%N, 41); (26%N, 41); (27%N, 72); (28%N, 69); (29%N, 82); (30%N, 69); (31%N, 9); (32%N, 0); (33%N, 65); (34%N, 41); (35%N, 41); (36%N, 41); (37%N, 41); (38%N, 83); (39%N, 73); (40%N, 78); (41%N, 71); (42%N, 9); (43%N, 65); (44%N, 9); (45%N, 40); (46%N, 78); (47%N, 73); (48%N, 81); (49%N, 85); (50%N, 69); (51%N, 9); (52%N, 73)].
Definition trigger_exits : list (N * Z) :=
  [(1%N, 67); (2%N, 82); (3%N, 69); (4%N, 65); (5%N, 84); (6%N, 69); (7%N, 9); (8%N, 84); (9%N, 79); (10%N, 78); (11%N, 83); (12%N, 84); (13%N, 82); (14%N, 65); (15%N, 73); (16%N, 78); (17%N, 84); (18%N, 9); (19%N, 84); (20%N, 82); (21%N, 73); (22%N, 71); (23%N, 71); (24%N, 69); (25%N, 82); (26%N, 9); (27%N, 65); (28%N, 9); (29%N, 65); (30%N, 70); (31%N, 84); (32%N, 69); (33%N, 82); (34%N, 9); (35%N, 68); (36%N, 69); (37%N, 76); (38%N, 69); (39%N, 84); (40%N, 69); (41%N, 9); (42%N, 79); (43%N, 78); (44%N, 9); (45%N, 65); (46%N, 9); (47%N, 69); (48%N, 69); (49%N, 70); (50%N, 69); (51%N, 82); (52%N, 82); (53%N, 65); (54%N, 66); (55%N, 76); (56%N, 69); (57%N, 9); (58%N, 9); (59%N, 69); (60%N, 88); (61%N, 69); (62%N, 67); (63%N, 85); (64%N, 84); (65%N, 69); (66%N, 9); (67%N, 70); (68%N, 85); (69%N, 78); (70%N, 67); (71%N, 84); (72%N, 73); (73%N, 79); (74%N, 78); (75%N, 9); (76%N, 65); (77%N, 40); (78%N, 41); (79%N, 82); (80%N, 79); (81%N, 67); (82%N, 69); (83%N, 68); (84%N, 85); (85%N, 82); (86%N, 69); (87%N, 79); (88%N, 82); (89%N, 9); (90%N, 82); (91%N, 65); (92%N, 67); (93%N, 72); (94%N, 9); (95%N, 82); (96%N, 79); (97%N, 87); (98%N, 9); (99%N, 69); (100%N, 84); (101%N, 65); (102%N, 84); (103%N, 69); (104%N, 77); (105%N, 69); (106%N, 78); (107%N, 84); (108%N, 78); (109%N, 73); (110%N, 84); (111%N, 73); (112%N, 65); (113%N, 76); (114%N, 76); (115%N, 89); (116%N, 9); (117%N, 68); (118%N, 69); (119%N, 70); (120%N, 69); (121%N, 82); (122%N, 82); (123%N, 69); (124%N, 68); (125%N, 9); (126%N, 69); (127%N, 77); (128%N, 77); (129%N, 69); (130%N, 68); (131%N, 73); (132%N, 65); (133%N, 84); (134%N, 69); (135%N, 79); (136%N, 84); (137%N, 9); (138%N, 68); (139%N, 69); (140%N, 70); (141%N, 69); (142%N, 82); (143%N, 82); (144%N, 65); (145%N, 66); (146%N, 76); (147%N, 9); (148%N, 78); (149%N, 83); (150%N, 69); (151%N, 82); (152%N, 84); (153%N, 82); (154%N, 85); (155%N, 78); (156%N, 67); (157%N, 65); (158%N, 84); (159%N, 69); (160%N, 80); (161%N, 68); (162%N, 65); (163%N, 84); (164%N, 69); (165%N, 9); (166%N, 79); (167%N, 78); (168%N, 9); (169%N, 65); (170%N, 9); (171%N, 79); (172%N, 69); (173%N, 70); (174%N, 79); (175%N, 82); (176%N, 69); (177%N, 78); (178%N, 83); (179%N, 84); (180%N, 69); (181%N, 65); (182%N, 68); (183%N, 9); (184%N, 79); (185%N, 70)].
