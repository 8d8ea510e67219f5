(** The files tests/*.xml, as texts. Written by tools/gen_logs.py. *)
From Verif Require Import Base Parse Text.
From Coq Require Import String List ZArith.
Import ListNotations.
Open Scope list_scope.
Open Scope Z_scope.

(** tests/2009060321gm-00b9-0000-75b25bcf.xml. *)
Definition text_2009060321 : text :=
  t_ "<mjloggm ver=""2.3""><GO type=""185""/><UN n0=""%E3%83%88%E3%83%90%E3%82%BE"" n1=""%E4%B8%80%E6%AD%A9"" n2=""%E7%A5%9E%E9%80%9F%E2%98%85%2E%63%6F%6D"" n3="""" dan=""16,16,16,0"" rate=""2030,2160,2108,1500"" sx=""M,M,M" ++
  t_ ",C""/><TAIKYOKU oya=""0""/><INIT seed=""0,0,0,1,3,118"" ten=""350,350,350,0"" oya=""0"" hai0=""3,84,135,86,98,67,123,91,75,133,48,134,65"" hai1=""69,41,1,43,37,89,54,109,44,38,52,72,94"" hai2=""101,119,47,128,92,2," ++
  t_ "49,125,35,111,76,59,81"" hai3="""" shuffle=""mt19937ar,5EE931AE,6705E689,792A825C,D96AAEBB,D335223E,025A7B84,9697551A,0A449EA2""/><T88/><N who=""0"" m=""31520"" /><T85/><D3/><U124/><E1/><V95/><F119/><T73/><D48" ++
  t_ "/><U71/><E109/><V0/><F111/><T103/><D65/><U117/><E117/><V114/><F35/><T121/><N who=""0"" m=""31008"" /><T58/><D58/><U79/><E79/><V40/><F114/><T90/><D67/><U50/><E72/><V61/><F125/><T33/><D33/><U74/><E74/><V99/" ++
  t_ "><F128/><T51/><D51/><U105/><E105/><AGARI ba=""0,0"" hai=""73,75,84,85,86,88,90,91,98,103,105,133,134,135"" m=""31008,31520"" machi=""105"" ten=""50,36000,4"" yaku=""29,2,20,1,34,3,52,4,54,1"" doraHai=""118"" who=""0" ++
  t_ """ fromWho=""1"" sc=""350,360,350,-360,350,0,0,0"" owari=""710,66,-10,-61,350,-5,0,0"" /></mjloggm>".
(** tests/2009100718gm-00e1-0000-470654d3.xml. *)
Definition text_2009100718 : text :=
  t_ "<mjloggm ver=""2.3""><SHUFFLE seed=""mt19937ar-sha512-n288,B43A38E8,A063890A,54C66B00,CE8F5EEE,8B53C544,535BF30B,5D7F5B49,6EFC2EB6,B13C899D,E706F43F,5C6B2A4C,ED12BEBE,80C71AEC,01E9BEA3,FCB9623A,B7EDCDEF," ++
  t_ "7892CD36,7FCC6BA1,2E9B16FA,9CE2814B,E2A6C5AE,CAC8F5E8,14DC4996,EE7E0293,6B1F0729,4D8C981B,F66AC473,6671362C,A414DDC1,44B91E56,E97424C7,B8E93A6F"" ref=""""/><GO type=""225""/><UN n0=""%E2%99%AA%E3%83%A2%E3%8" ++
  t_ "3%8E%E3%82%AF%E3%83%AD"" n1=""%E3%83%9A%E3%83%A4%E3%83%B3%E3%82%B0%E6%9C%80%E9%AB%98"" n2=""%E3%81%B9%E3%81%A3%E3%81%93%E3%83%BC%E2%99%AA"" n3=""%E9%87%98%E5%AE%AE%E7%97%85%E6%82%A3%E8%80%85"" dan=""18,16,17," ++
  t_ "17"" rate=""2176,2074,2108,2150"" sx=""M,M,M,M""/><TAIKYOKU oya=""0""/><INIT seed=""0,0,0,2,4,55"" ten=""250,250,250,250"" oya=""0"" hai0=""118,27,97,32,111,121,99,25,124,26,67,70,12"" hai1=""33,119,37,59,72,123,134," ++
  t_ "2,94,69,107,128,6"" hai2=""64,104,10,130,90,103,112,45,24,92,34,5,62"" hai3=""29,88,79,91,52,44,105,106,98,13,131,50,35""/><T22/><D118/><U30/><E94/><V86/><F112/><W31/><G131/><T36/><D121/><U8/><E30/><N who=" ++
  t_ """3"" m=""11274"" /><G35/><T75/><D32/><U3/><E8/><V77/><F34/><W14/><G105/><T1/><D1/><U9/><E6/><V113/><F113/><W43/><G106/><T76/><D36/><U115/><E9/><V93/><F24/><W49/><G79/><T57/><D70/><U18/><E18/><V85/><F45/>" ++
  t_ "<N who=""3"" m=""25791"" /><G98/><T100/><D124/><U56/><E59/><V117/><F117/><W81/><G81/><T47/><D47/><U125/><E56/><V28/><F130/><W21/><G21/><T95/><D111/><AGARI ba=""0,0"" hai=""2,3,33,37,69,72,107,111,115,119,123" ++
  t_ ",125,128,134"" machi=""111"" ten=""0,32000,5"" yakuman=""47"" doraHai=""55"" who=""1"" fromWho=""0"" sc=""250,-320,250,320,250,0,250,0"" owari=""-70,-57,570,67,250,5,250,-15"" /></mjloggm>".
(** tests/2018010604gm-00a9-0000-bbc99254.xml. *)
Definition text_2018010604 : text :=
  t_ "<mjloggm ver=""2.3""><SHUFFLE seed=""mt19937ar-sha512-n288-base64,Dey4JVURYgViGVglDlwvnuXMmqR2C1W7ZiRHg4XM+qIlX3zWKYjwNZI25UYP6CUxkf722GC/HVComNMvRrUAM5Dtw1ljgi9fWzPt4MkTOT+YPUlQe4g1UOKbmzSDepe9G6HP1NtSi" ++
  t_ "czoefBktYuUX/pldwr/xeUgk8z6gFVAE3xCfWJdesD9d6RKrvSD4yxJdC0+fDTA8JGoJLq/gajyLm8YBgzpm9rHhuPlvkYgdBNLwjMGq0jwxfuISZdd4SBRl+UyhtF9fZvOLIdFjMPOYAtC745ZD+uvJldPgTueZ1jO0PGleaTbtWVlX6a/7m1DNrHIplc2oSU5hYuvX" ++
  t_ "WlHR+AiVtrvZJOEQ9whTINg0NF9po6jXg2pedSaa9urSjJH2NfWcKpuZHyGwkbHXOuyVeJG2a/aL1ppIzDOt5wDj6KdZ8h3JlH59VP6SHsLZgtOIxdokidg/bV8aOosKajSGg3MgVtbmBAZpRn4/iorWg2qt9aI/LYPhY+9+6HonSAFTJW3oT5eDyHqZIgUTB6x2c+tU" ++
  t_ "gYQxmpky9WUSibdAwMomKBUqDVyI7Skvu9pRsrP8ZV1yv/+NIHT2IQnKiyHoBI/t8oRpUXdMahuc2jRD55lRLUEZ6erhWQg4CCoWKFE67XN8nunYOnl6RLcjgpZniq5y3tiJN2n5wZzNjyJFdcxwHhNZ/vLS199KCT8qqUTtZ+zoJBSMTode0u8xDpVK4UBv5OJDuf56" ++
  t_ "jjqjhYxAXYDxeqwaf+HAR0fDm0+qt1mTyvJaDPD1F6FOVm5cPffvhbgxmDk0Hp1nCdAI/JrP6IY9MqB6EWypj1T7RS3MyU6CXgpaiEns4fvSaLcpf2iLL3tYFeNpLO0chGAplpQDQHekEAFqPJazNRgssvK4uuMRlbAU0fz84CV2X0Iq6BzIydjipSZMZLtmsF4HCa2r" ++
  t_ "dA9hxSuVXLrNDBBPBaUySWWFO8U822hUz/K9FKS9XKmGKs7UdHnziY0GgJ629hcPc3XwKsa+iS034+PfV8rhPx6Y/s7rFrIfqsOdq4UNtQ6oNM4HdIIPC6VbS+EFq/lDpwCUcmWRKV9E5+xVGrlme9C0t6SI+6nPhtDoqCyjnchqpA/rYWuZGm6QXLbouRjajUvzds5F" ++
  t_ "UYDPHMjCiKxZl2XFr/XX87Y2QjBraX1NbBsOjNta78S/I/ErpKYNHVU9pUUWUKn5s2XqYcVDk5LBvMsiODxCWt8ET3yP+y8exe1NV5w37jtKY1syEsAmkOSWxmGvr6vNoFHIfM13nP1iyBdjQnfZVna5k6ODhB5UeuOkUFMsm0ZmJ+HpcflV+p1aNkpX4Z90LKkR4bpW" ++
  t_ "f/bZtAN8FMo97YEQGDXg8/wIXbCHpMqBuGvpbPw3YHwTX5ENT5/XRyEJ49A1iPH3d52UWWonwEktD07nbDjEOiOvT2CtIzaTpmwRP9lFRZyfxkUc0DgLllLsbNL9+bHwCEdNsN+W3gXmxVGxILWp32Z2tk/RbV2tiBiG4ygr9pBmG2aLNN0MYXLRfg42OTwCRfgca5Ij" ++
  t_ "kW9jCEl1Ho09HseQK/IF7QzaMZYcH2WChXjnkAliDp3PcLdW9y7d9NFiHKmvlxOnpfaYIS2c8cYd4I+aO+KlSPhBtkZ6vBM0Yw+b6hDQE4Z6ELb6BIDlUJ83fqrXwXzw/e/ahMp5B9oMPEPurbOWD6eRZ/bxRgamJFyKp+mCQxq8vSHRTZsNWFiY1iF2llVn+QCF0pek" ++
  t_ "wQSMtsIi2vStMrzvRALuuPWp6bS6CL2mqns7oELo3JDmp6HUWshsH0gRTpmk2W/Ve8dduh8zeJ2FM1hLaXMgNkdKgYxdON0ua48W3oCapDv7QrmZb1dUOzkhOLBvIg4TZ1oz9nBTqe5Lknzl8BTKLWENUeOuwS8yGHN/w1FsMLjcMUvFeRgXnOeCSsVR2gZKBpi/sDx6" ++
  t_ "Y10jY1DHAEcmGtzgoYq/AyJqjMHK6egsnljtuEblTCMn7sKjX42XNm7BTaMNZDfcYQJve+TyG9cnL5qDeN1J1ZYEJX6O9I8fF9gfGyDxgXIUpHurxTDwcLo1hV6jYLdbQRSWMoJosfNLzoWlnFzcGvQ3mPXfXCoRiHTtdylL4r7nP43zl/sKYPOL1oHyCn/fsQY1pwXF" ++
  t_ "bKEbHpDhyZz2gghdEh/atxQ4n0ev/9fGssd09HXdK2ABKgiPNnrf86UFQFPTJxxNFrccB+X74KTfokcl2D8moBcGGtfH2q4/CNnTMkmBwWNG8wAzZYwsfqpBopIY1hHw8dOuX3m2DoD8N4yKQWxWtRyma12y1QQOJkd3ZGmJmXRisbE+COpF0AXiOnQwuR4EAgGLFIIr" ++
  t_ "l+VXTAEe26Rh+cMKnVfMYkhg950Fdlubwu2OF40Ab0YRdC1IpFgjnu107XL5OSanOufpC8dPhMYvgVGmfiI0vpaXmC6X8SqMR/LRr0CE8grIaPtyIYX8hnXCWRzI6yNfSMkmoDhWHPjSLCUC627rBMpC8825ynpQGXuNfosuzhZxbgnodWRMn6W5EJIJ9DobXVUn82JD" ++
  t_ "eJxd5I3YMJ/HiMAcszfpj8te4OBLZ3gtQmWd2EJMLf5EgmptUtQoUmtDAl5SiXNvYPpfRM/fXAfMgsMba9rEf7GvN0H9hpjJeZzCzkseeE55C7TNPfDPWxs/m/UEYOLOPpuIjZtgdJxSsvKLHC9WEm9HuIh2p/1yQLlF9awkVPtD66Qe6P+oHJlvqL6fmT9/j/dEz9vc" ++
  t_ "npjF0l3txVVSbX5QAeuEbSoTp3jBkPDniTuGKoegte7y1YSNWDu11LlLFCbBN8xlF56JC9/8ZhHLJnKlHvGOMszO8YuZiCc/Ja4JimYpkf6z7BrHGJnBV3J0kER6N1VW2Gxv5MQ6O2b0qBvKudu382oPusvlzuIgImPBYAVIFoq6WJhHO6IgL/aJ+yoNLqF9gABkSZQQ" ++
  t_ "2ZBFVpbrKs+wk16Ah4MEymhlfSNX6KIZk4T4bl+HGyEe5Kp9YsuMKGOKbtUhNDmsm6YuJF+lHX5v1yMPWU+MqdzwkDhqoC2TSBbomKct9tPE8MPGnkiucetfqid9OJ4JYzsPukEa2S4aCTo3FzE5ABfb8DOwrG6cAWMuNvA/fzXvmFSlCJOEh+03kKXJxFINF4yJ2LE7" ++
  t_ "1a6O5sLSk0IwGsaRS7wu/LMiyKF4pgB/KwjgrDFMkSjc/LXQ8yqPPyxiDWskIYPJjFMat8kcgv8a5CPTwGCqrHXEv6rWg9EJXt1QTiVbcFA8tcaPFQjQamlwXRaxEYcQFskEp8Eg4CbUsye0drydyIP03Lt6NUD+WZKvxE7p6UhKqu3zStRJIwV7MDhUURx"" ref=""""/" ++
  t_ "><GO type=""169"" lobby=""0""/><UN n0=""%E8%A9%A9%E6%9A%A2"" n1=""%E3%81%BE%E3%81%8F%E3%81%A9%E3%81%AA%E3%82%8B%E3%81%AA%E3%82%8B%E3%81%A9"" n2=""%51%6F%6F%50%65%65"" n3=""%E3%83%91%E3%83%88%E3%82%AB%E3%83%BC%E7" ++
  t_ "%87%83%E3%82%84%E3%81%99"" dan=""16,17,16,17"" rate=""2122.87,2219.89,2106.83,2215.66"" sx=""F,M,M,F""/><TAIKYOKU oya=""0""/><INIT seed=""0,0,0,3,4,105"" ten=""250,250,250,250"" oya=""0"" hai0=""95,109,75,3,64,40,114" ++
  t_ ",83,76,16,23,126,49"" hai1=""132,47,104,82,78,102,115,37,84,98,52,128,100"" hai2=""48,69,119,124,63,13,26,91,45,123,88,17,60"" hai3=""35,20,94,73,33,50,21,97,120,72,7,25,122""/><T43/><D114/><U62/><E115/><V42" ++
  t_ "/><F123/><N who=""3"" m=""47147"" /><G7/><T41/><D3/><U56/><E132/><V39/><F124/><W67/><G67/><T36/><D36/><U27/><E102/><V125/><F125/><W96/><G50/><T87/><D126/><U134/><E134/><V110/><F110/><W90/><G97/><T80/><D10" ++
  t_ "9/><U51/><E27/><V29/><F119/><W2/><G2/><T108/><D95/><U54/><REACH who=""1"" step=""1""/><E37/><REACH who=""1"" ten=""250,240,250,250"" step=""2""/><V86/><F39/><W113/><G113/><T15/><D108/><U106/><E106/><V28/><F69/>" ++
  t_ "<W85/><G96/><T46/><REACH who=""0"" step=""1""/><D64/><REACH who=""0"" ten=""240,240,250,250"" step=""2""/><U31/><E31/><V11/><F28/><N who=""3"" m=""19599"" /><G35/><T4/><D4/><U32/><E32/><V22/><REACH who=""2"" step=""1""" ++
  t_ "/><F91/><AGARI ba=""0,2"" hai=""15,16,23,40,41,43,46,49,75,76,80,83,87,91"" machi=""91"" ten=""30,12000,1"" yaku=""1,1,7,1,52,1,54,1,53,1"" doraHai=""105"" doraHaiUra=""44"" who=""0"" fromWho=""2"" sc=""240,140,240,0,25" ++
  t_ "0,-120,250,0"" /><INIT seed=""0,1,0,0,4,119"" ten=""380,240,130,250"" oya=""0"" hai0=""46,125,63,99,41,91,104,118,127,108,27,100,44"" hai1=""55,76,88,14,43,59,92,84,56,133,13,114,19"" hai2=""78,121,102,110,30,75," ++
  t_ "12,80,97,68,112,94,45"" hai3=""109,82,70,26,115,5,61,83,35,132,128,31,48""/><T34/><D118/><U90/><E133/><V39/><F68/><W129/><G115/><T95/><D108/><U105/><E105/><V38/><F112/><W113/><G113/><T62/><D27/><U16/><E1" ++
  t_ "14/><V11/><F110/><W81/><G109/><T50/><D34/><U49/><E43/><V29/><F121/><W103/><G5/><T117/><D46/><U10/><E76/><V1/><F39/><W135/><G103/><T74/><D74/><U32/><E32/><V18/><REACH who=""2"" step=""1""/><F1/><REACH who=" ++
  t_ """2"" ten=""380,240,120,250"" step=""2""/><W134/><G48/><T107/><D117/><U57/><REACH who=""1"" step=""1""/><E90/><REACH who=""1"" ten=""380,230,120,250"" step=""2""/><V23/><F23/><AGARI ba=""1,2"" hai=""10,13,14,16,19,23,49" ++
  t_ ",55,56,57,59,84,88,92"" machi=""23"" ten=""30,16000,3"" yaku=""1,1,2,1,7,1,25,2,8,1,54,2,53,0"" doraHai=""119"" doraHaiUra=""28"" who=""1"" fromWho=""2"" sc=""380,0,230,183,120,-163,250,0"" owari=""380,18.0,413,51.0,-4" ++
  t_ "3,-54.0,250,-15.0"" /></mjloggm>".
(** tests/2018011723gm-00e1-0000-d28ec3fd.xml. *)
Definition text_2018011723 : text :=
  t_ "<mjloggm ver=""2.3""><SHUFFLE seed=""mt19937ar-sha512-n288-base64,NMaHZ0zhNM+ftDdpkHO5mP3l6geK7OfPPxtNrI5KMW27XmTdwtwntzKLFdOrHrCXiZ4NhlZoL+kkWQEB9w0c1VSw5Lu/lKS5XsNtZUT55+/QAdAHGJzCyDm8HFOIzx3E+kvIqU2G0" ++
  t_ "Xy9xO563ZLHnkOjXvrhDyahDd9HnQAnv6IUuqkC6WbdM7Ch1vaSfHe+Ee8MN6XcktnEYT4v0c9GFnb78m27JhOB2fTLU4U3+rzPXa1ch678aA1eiU3rheBYuMA1aP/LmX3lTtHvLuG+J97BtEUuxPK1aKRobUMJQ5ZIfkeAzbE4PDQwcsd25Nl98cYsBO8PUFBBXjLAx" ++
  t_ "l4td0gOAMKmUriSKIoVHX6gLNM0FQSHJojMRCHSw9aX4FboepwdOzb0+Tkk9MH33cP7hVmDO4ktRgcI5MoEkoUyNm4d/XKzvCPz6kpbG12Oy8p5z9sD5369O6tNU9yJnjJXZXzsmt1s41eXQuy6vdyVFrDDFSa9+BNMT8lPXOEWtCykSBTgXeP2zXamQ053E3/WH34r9" ++
  t_ "F/wka/MYemTSC62w8ToDz4EDJKDAZIXUmeW0L0cpC2onc4Vb+0edOXb67QEwD3Q6vQqYnAg41tqZT7Kdcj4uY9wHFI1gxaqLeZZzbeSeJvh0xlrtf6/A3jZYeF42oE4floH3xxVDtMx17TRMJ8ke7cNnhhcOFkcBn37/lzgOrxGIWYUFlNU1J1nH/xa2oY6aWPBVnk7P" ++
  t_ "sntgsbZAmDTN075K/fWUxt+yAdhxVIwQsoDxIzvDvLfpS+1lgbEt5vL32VFGTXwWmJ7cPgb8R6YIXBZd4FyYFO6IefdjXs0bl0O0xdxt3lHqYwRKISdffjpOqaostaogk4YVc2vvsryCHpIggKNKNzp2q9/vOYkHqSRGPZ6gAT8PLhznjUPcCdsUQSM8LfKu3rjk0For" ++
  t_ "Z/5JlMnaSJWzLldRAGNFmlZstKOnXPlx5OdmgMBmggNfjZkF79vIvM/AbxEdRCTxoDETfBfsW0GQIw61v+/+nQ6mKljQSW5nwvQInXOz87itLRSO9055wwNywbUKjl2mXtEVce2uh7chnekqe/FR22b9W4V2RLqsLQipxFtjAgP3q9DJiB84ygCk/7B/Tez1f2rZaXR1" ++
  t_ "Tjl+PxjPifFuyQyxvX9sg4oooSOGZA3FDEHT7kvOVmLZ3ivfhMHHaoiIUZgNA02nD15gByMdEI8K2ir3N6gOLV6WuAkidrIU7rKUHt34czL7xGeSTQKc46EQDiZO9+qWw1uB3H2hOn2YBHIc7L9ct7mA71mSA8+6TcmoAnvFHEeMnEtHLkVLqiRctmUwj8HwUn6Ggi7N" ++
  t_ "gq6TZLbw3RFlt1pK3ZkDsswHwzwmsoqzAkIO6dERzw4U7IQovsbXao1xPDDyrmFEi2azqjlex+Gw3AutCs8SFQ/kyL4ng2bPQXlWLsdok4pivtwt1wuL2b0Ni5QukvUfyPSB0tR49Cn08e5lI93DBq96deNc3PbVbG6Kfu+Pi5Z/pqiIS6T1pM5FZ0u/LITyDkq3lQFu" ++
  t_ "ZS62ECgmSKgYuo+7WURtfQPKWfr1JJ55AM0/w6jmuH7qwM9NZIULoM5mntHqU4YMDBofK88TNdPBkJINhInhsg94FwOZx06i1wkX3V//9BS7TubxiGvZkL7MT7tOhe42OLK2dffBKQ4jepvKJ7P61EXLK7HArebNuvvSWVcbn5cfgv7l+PL9/YkC3iLF1Em+Pw6iCQR8" ++
  t_ "y6BO2Yj6gH/P11p+mTr6mNKvl8P+Pmoh2rGkVLt86fMoc1PNnF1g6eTwl/SIA5Rr4vE+Gbn6u2JWgNJXP+boupUnLWrHxrmey1TCGZ2A8cOy6K2ZGH3pVFVLprtYUPKMIjWg/NGEdaSRRY6wrVJTn7Ls+A7bEgVQoCrYYDUS9dudKwE9gWF1M8SswuozevrZjUbZSbC/" ++
  t_ "KdXm4O9cJ/Na7g38bebIrFX4qv20d3jn4sioUZkr1Ghp06EmOg/J37V6EKVPkvcR1edb3FcP7zYQUF3nm1NWh6/p4iUclwYiBIMsGn0ALglLAlOz4PehBPU8TeaFqYoZQFwEr5hrOUMHo9rycqihl6/NsrTjGj13UvkITg9lq2lW8ln7W4gbFThMDvUbtT8RGIhzXLsM" ++
  t_ "jbAShrX3Sda/L3UqWh4jYkBMmsnIB3GcMwiArxj438VLqxKlSbK7TqsVBfiiXyXcTKNPS9xPdWTD5xIQ/XVAmuiwl3o4zRZhufsihIuTIO3VqF5gybgtif1Ul9ulV0YpWYzGmIm0qNQbhefT1a7QGzGwQxofENTxbf23ewcTjbnMM3MFBqt2YWRVyKgWSYqJBMxhLjA9" ++
  t_ "fvSH1yxEydyU3NtSo1P5F1g/A9QZ2hWvDxbILfVNyqG6JLzYjOEobazyCmUAs9qBUJCoojisMp3q8jaJj92TbhffgWfAoxwa/6j4lXqcpMqfw4OidJAp8cjM6AZTjcxDysMGeOhZQXYMhhIWGUUb6DtvIj+uP3H3wjxt2Rgl2kVCsboBRHG6AjCi/jmL4MRUwlHuQrk2" ++
  t_ "/34N4NHyhbW0CIqe1ykAWSDNpzpGHltk60D8Bu5Wht9TBlPk04C/FgF0uZGTiJLGC+1Cx9jz6nEDDlnwRFS7YZqW72haY2iWIZZHurs06Z1Vz/2z9MjRzG6bfzbxVUTlbHHc59qas16/cR2I6BS6JgqxW7BubMPBWNFZcwee+WXKqKGYsuLd55yVWYME1moHn/OII49S" ++
  t_ "Z+Td/08kWahCAeoFxdum5ICDoq/Y1DX0Utu4gO1gALs3gLIFj8JW22m6hJj7sXiMWYB9GJvaRAYqONq0olYENpdd8PogMPLjPGnbBOw0rhhiPFH92N+K8GxYM4EZWle21c5yUqShT9f4EVcdoy02FfFXJ6HpyE72oi0ptGeHYfhagJtvg7aYXAcNVf3by/fU01e8Tf+g" ++
  t_ "pd0I6MvU9VLRwyO8xBG8V2eTL+fRFziG//UqICE7h3Cotu+lcZbcn8M9lfFBxbkBaODISW9YKy3/pqRjh/Zs7seeIuyv29oufHn2NRWAeLz2paTjB+ai4CCW+pj4tWiTmpHR0CvoJH0gEfaJFpQuNpj6fTxs2ioFdXdrXXk4UjSdsmt0I8+U9ak7TfxWoXHonfmOcZBZ" ++
  t_ "VM6GPiTxIqG3eQcd14P8G6TdvTXZEgk/kRm1oFW8cELR4JnVwcrK7JaXuOsABNFvImSN7/0HzkIX7gsf/JCUoNkxrUElFr8S8ck8BRa9IzLwhj2SlmfmlkRZ3/LObKXC11QqD3Qn2/0Xbu9nxDG4+hd6GAHGxOkfu18GRoBO65M6bOZ0fVRWgcrvGimYqZm"" ref=""""/" ++
  t_ "><GO type=""225"" lobby=""0""/><UN n0=""%E2%98%85%E3%83%9F%E3%83%BC%E3%82%B3%E2%98%85"" n1=""%E7%AB%8B%E8%8F%AF%E5%A5%8F"" n2=""%E3%81%BF%E3%81%97%E3%82%83%E3%81%8F%E3%82%89"" n3=""%E3%81%BB%E3%81%A7%E3%81%95%E3" ++
  t_ "%81%8C%E3%81%BD%E3%82%93"" dan=""17,16,16,16"" rate=""2187.65,2111.38,2196.14,2087.64"" sx=""F,F,M,M""/><TAIKYOKU oya=""0""/><BYE who=""3"" /><BYE who=""2"" /><UN n2=""%E3%81%BF%E3%81%97%E3%82%83%E3%81%8F%E3%82%89""" ++
  t_ " /><UN n3=""%E3%81%BB%E3%81%A7%E3%81%95%E3%81%8C%E3%81%BD%E3%82%93"" /><INIT seed=""0,0,0,5,4,125"" ten=""250,250,250,250"" oya=""0"" hai0=""74,13,98,28,117,108,17,43,114,0,59,62,32"" hai1=""41,63,97,81,34,110,9" ++
  t_ "0,99,79,11,55,7,18"" hai2=""31,80,23,94,102,73,29,33,3,15,68,127,57"" hai3=""129,30,109,72,121,119,133,82,60,77,96,40,70""/><T131/><D117/><U5/><E34/><V12/><F68/><W126/><G30/><T111/><D114/><U39/><E110/><N w" ++
  t_ "ho=""0"" m=""42025"" /><D0/><U115/><E115/><V46/><F3/><W36/><G40/><T93/><D74/><U58/><E39/><V14/><F33/><W123/><G77/><T134/><D134/><U75/><E41/><V27/><F127/><W64/><G82/><T16/><D43/><U21/><E11/><V84/><F73/><W1" ++
  t_ "12/><G64/><N who=""0"" m=""39007"" /><D131/><U107/><E107/><V49/><F57/><W106/><G60/><T71/><D71/><U8/><E8/><V19/><F94/><W50/><G50/><T22/><D17/><U20/><E20/><V118/><F118/><W1/><G96/><T2/><D2/><U4/><REACH who=" ++
  t_ """1"" step=""1""/><E90/><REACH who=""1"" ten=""250,240,250,250"" step=""2""/><N who=""2"" m=""51463"" /><F102/><W122/><G123/><T135/><D135/><U88/><E88/><V128/><F128/><W76/><G76/><T95/><D98/><U105/><E105/><V48/><F48/" ++
  t_ "><W44/><G44/><T10/><D32/><AGARI ba=""0,1"" hai=""1,32,36,70,72,106,109,112,119,121,122,126,129,133"" machi=""32"" ten=""0,32000,5"" yakuman=""47"" doraHai=""125"" who=""3"" fromWho=""0"" sc=""250,-320,240,0,250,0,250," ++
  t_ "330"" owari=""-70,-57.0,240,-16.0,250,5.0,580,68.0"" /></mjloggm>".
(** tests/2018020105gm-00a9-0000-95d6ac02.xml. *)
Definition text_2018020105 : text :=
  t_ "<mjloggm ver=""2.3""><SHUFFLE seed=""mt19937ar-sha512-n288-base64,MdOPrjSdvctC0uZ4amiGPTi4DNrJOu2CaANFOC5l/+vvMHuNOBI38E6AuCOSYs9ecLX/m2VLFI1/HZ0KJo98dfFXkCChgza0gZyEoxjrMwdJT+WYQxE+yiYgutuamCUmBNC/rs34E" ++
  t_ "X4N+kI3Rd/wK3fgfIUOCWwoRVKggPdgZ6JaZ8WJPbE7VCxJryH+8sDGxUQ4AgzgFNUwGjty49MEDwUvLThyF2Da6+jbmhBPqSUvwrS46F7jj3edVezP3jO8OdIBk2o+nmktx/s+1V1rru6+9Dv7l7wkhuT1fP9/xEgiNr1CqnWqWhtdBFeHImjjytS1sBmzNuEE43yPU" ++
  t_ "xvLStOlm2tpHJXMOzeHOBfT3xe05ivNZsSzO0kX80BZoI/K5rQDpp9xZ8yS3ce/xW2hZ2suCRXFmSpoF/TgTawq/gje4bYGfAVGGZWjAsPjdFYzS9LK4zo5gY2HGfTOEcXZKwjiTXXeA+I8UIbypRSpXk1VXZyAB29y7uq8FL7E5cOanBdRe0Aiki50buhpHnn6C7l5l" ++
  t_ "NPJpyglT0u6WNXe49Yd6PCw0Y5SYDDB5AN8iNK2nlVv9uHw3Zt16pz3KNwteT7kelyOmwTaRAOdIdJ9gcoNG8Mu1LoATY2UBQENLWYurCzQazBBf+TW35TRENpizI+KgE2a+gpMN65ERAlLvM1Y528Z4rNUC81ddnpgimv/vGwjpIvdZMlIFehrrOeH0eOJAnS3aLOu5" ++
  t_ "rszInFN/lRNkU4sCblekN5dMLm6bmxACab94x6iZnM6XZ9ZI1Im2KHGBEru89LXD/u3fVb6jImoNQ8f2BfWr8R23RnBVYaUZDwWzN8bIbZ96W7e2XBQt5cc4LZW9LQ5j4jCJSWeRz4naI5EecDh/ectJUD9Di0mbp48Iip8HmOA/VlKb9PnMejwVJAJ2Aut5foydyXAd" ++
  t_ "leiGNe0e42lGb8/U+Q0uYdHQZ+J2cdTM+1L+dEBCfSk3jm98aoNqhixObIf9WZLK6gjcgio7M5lt4q8GCBAmNXkpBefSwcVdtnRLHVt/nIlnTBMdhM+zdK5LrqKrGz5pVv8S50l0rON5DSM5ptuvqidkvT+UTmL+TjJ18h6tkTJqNr5mWmBP3JgQs3kx+hhXOyx/I1LA" ++
  t_ "SSNQC672s9xTxVIQDf+ZGt/V9yFCMaynzALmwnb9ZvqtYXTPL9BZw+FdebPQRyMeQDmpFUFaJYF6RBnejrpvtXvGUldbIF/Eb/0OVRBUbEvUm61qpO/UIh50h8jH0ESX/h7pJoKCnHtqFibhsW/c2u0REy2pPze+fDrTIqs+xBrpaUuT4bxLVq+NnXkVMAwgavUF7YlW" ++
  t_ "5X0KLRsf1rxHFzRsaoH4ZBE4UEclw1/SDNulumtaLoY7PEgXu4iHZ84/UZNUCCSuAV/EbfkI+IG78fAMs2MeHmd97S7WMhNUeaE9+/r7ovT18q2vzM7PTmg6aR2LBFmqBkjxJgrpXGU0ZmqJupB3P+9g5zpDPPcyjBJvvGF/DWABgkAEtI33D8lkPcm8hZxZ85ixUO89" ++
  t_ "llTK3pJGr1OKBMdj7mvR7Bh9fbb9VtJzZecnccEOaNYMz3M3BpFqiP5yMplAEAU+OXija8befjkvetEAJsYXIyA0dQiXEr1cPso+GD90koG3tCRaMNzZGUDJQflcI+CSfvxc8eIPDhLyy+EqsABCk0Zz3ag00EVymW6P4PqOfS9rqWlOgMl8Df3ArJfJE1L5v+b4eGNP" ++
  t_ "ZdVgft9nGpLRpVlJf6NuSSi8u7h6WoPKoXxDEh2ofezZ7WVyBE7FBX3xr1/wxtuIcakf8riBMxVwXRlS1B733q9AVMfdUO8+UxwM7oyT+8HJxEkf220vjdqyfQoDg9JlGH824qYfCty/hY3qJPvQos/77K55m6DUnHBAZ+Jd9RSiOhj9lJq74B1xMSywn3urRrHW9u7i" ++
  t_ "UxXnQjeZTQM8N/5Dy1B8UgWzQVL/Lqao9DrRvMm0WK8z2DTEFjz705VkfELxcU2YZSd0lp2AJJs0zbfDnc6utQk8TPVyei5A8v4meEO56vJwC1XziwB4i8np6ndF9RsQhBI4RnqS1uN55lzUzfE3T/CmGCrFNJ1WVHegGV8qs8hoZC9T8gW0Ub7S0+WBuADM9zsUMXnD" ++
  t_ "WH/vgnpoJbqTRtVs+1dcFkrx1otzQtgrybeuNh7nzBBB23AkmOqzTpSaXG16e4Z5XGr4KssHsQy0YBqSGpUY3KPiOgps81CBIeK5zo3FIlajZNSRlr8uAho/3fUrbpoFzFnwytZRDLvEqdq7DevfhMvCRPcq9rDKM+3MTwBEPENGdC99Qni2d99IN4o+nmdTCWVnm0hi" ++
  t_ "F3XCfYjRVNcF5LnYc9oIHssJfTlAw1Pvzuizx5AisAXJyD2+Esxilr/aPfnsI3M72C3SkFRZHTIQY9FHHlYT9QpeABD3nPpzmYLaOg444rDfiMmjs1wFATRPlQRJT2OKW0pKvaf98R2hPdXL2JVBFviZyLr2t5f0jadVFfXMeahBh6xS8MnH3Zz9+vH6YHOloXN7YMAp" ++
  t_ "/QwdQ8sDKqJx2FuVVUG9SKMw4soRS1SlKZoDMHBNmXIr0vQehPxSZToLPSk5Lv1hTdxcuzH7UMHizMjMYLhJLY79x1reQ1Jyyyi1/B9aQo0Pe3nU1YGkejCAFjW9NyEc1c2hpZI1A8NLirFfQPfbmmedDXun6NTQ+EoL3u2swRBzFMSZKXVLQd4ihII6PgX0kOFTYHQi" ++
  t_ "L4B/NPK8nWuQUJm1LexXCRO5S8LPAMqA9Gx54M2H0pQEqPoVx9OK4ypVScxHgX6ABE3tJK/BN4Fp15y0UbX6m+M7hN8vcaAzti3US/Uueds794CmDcKS+/DV49XSPalAHXGOuhK2S6e++k3ZBkh1iWZWgIuP1fR6f4YuFFHKZU2Bk725cyqt36x+lNEzYVvsA3aLiU+b" ++
  t_ "Kqi/KHgjaIzzEO2uWK2/+dILJX01lBdyZBMIao6CDghWzYw7G7/XSWUFpVFDarEKnf3Dutl9h0/NnlmpMJiF+QzBlSoplKt4l0JwSQbo0Xyl1KCQOrAWQS+5eKXgBy7rz2zyM3F5R5DlkQnZ1Q4bpGKqsFql2EUFhS32RURE63W5c75UjaV73l9mkWiqot9Qb3N9rKNK" ++
  t_ "Wp/sONDguVFtx1IYgV95E0UeLy+u9n//4PhjGXYitPLD9igPyjhjxMjDRA1Gaii/NIsLNBlz4iZitAXEbdRhFjg/3BM6QiGXqpwpXLaGgJelny3xFTF3+p8mpSzSSIZCYW5AN8Hrk3vvzSYHrsoY6aoJ2snhf5c6qu6I3QIdnmjxvwr4qpYv8aMhbKixQb+"" ref=""""/" ++
  t_ "><GO type=""169"" lobby=""0""/><UN n0=""%73%61%6B%61%69%36%37"" n1=""%E8%A1%9B%E8%97%A4%E7%BE%8E%E5%BD%A9"" n2=""%E3%81%BF%E3%81%A3%E3%81%BA%E3%83%BC"" n3=""%E7%95%99%E3%83%81%E3%83%A7%E3%83%AD"" dan=""16,16,16,16" ++
  t_ """ rate=""2159.00,2119.14,2146.96,2075.41"" sx=""M,M,M,M""/><TAIKYOKU oya=""0""/><INIT seed=""0,0,0,4,4,22"" ten=""250,250,250,250"" oya=""0"" hai0=""72,41,97,122,89,3,101,126,92,38,69,21,9"" hai1=""123,90,86,93,96,1" ++
  t_ "03,132,52,67,77,111,71,24"" hai2=""55,75,121,15,95,36,46,110,39,42,127,79,5"" hai3=""11,32,76,13,8,116,0,14,35,91,57,16,129""/><T48/><D122/><U34/><E123/><V112/><F121/><W44/><G116/><T29/><D69/><U7/><E111/><" ++
  t_ "V104/><F104/><W2/><G76/><T70/><D70/><U20/><E132/><V45/><F112/><W26/><G44/><T81/><D126/><U88/><E34/><N who=""3"" m=""12842"" /><G91/><T66/><D66/><U27/><E67/><V43/><F110/><W18/><G129/><T37/><D3/><N who=""3"" " ++
  t_ "m=""1065"" /><G57/><T109/><D9/><N who=""3"" m=""3657"" /><G26/><N who=""1"" m=""9770"" /><E71/><V33/><F75/><W114/><G114/><T135/><D109/><U28/><E7/><V115/><F5/><W107/><G107/><T99/><D38/><U61/><E77/><V133/><F115/>" ++
  t_ "<W64/><G64/><T134/><D37/><U100/><E28/><V19/><F79/><W124/><G124/><T117/><D29/><U118/><E118/><V131/><F127/><W25/><G25/><T119/><D21/><U87/><E20/><V6/><F33/><W62/><G62/><T10/><D10/><U106/><E106/><V31/><F3" ++
  t_ "1/><W59/><G59/><T53/><D41/><U12/><E12/><AGARI ba=""0,0"" hai=""12,13,14,16,18"" m=""3657,1065,12842"" machi=""12"" ten=""40,16000,3"" yaku=""28,2,35,5,54,1"" doraHai=""22"" who=""3"" fromWho=""1"" sc=""250,0,250,-160,25" ++
  t_ "0,0,250,160"" /><INIT seed=""1,0,0,3,3,8"" ten=""250,90,250,410"" oya=""1"" hai0=""38,90,129,62,88,25,63,44,67,120,91,30,20"" hai1=""68,12,117,94,69,121,134,59,24,98,72,39,29"" hai2=""50,96,66,84,124,58,9,89,35,3" ++
  t_ "1,130,113,60"" hai3=""26,81,54,122,18,3,128,135,10,83,27,112,23""/><U40/><E121/><V13/><F130/><W51/><G112/><T73/><D73/><U97/><E117/><V126/><F113/><W45/><G122/><T131/><D120/><U41/><E72/><V36/><F36/><W114/>" ++
  t_ "<G114/><T46/><D38/><U64/><E134/><V70/><F35/><W56/><G128/><N who=""0"" m=""49227"" /><D63/><U15/><E39/><V133/><F31/><W125/><G125/><T0/><D0/><U4/><E4/><V74/><F74/><W99/><G135/><T86/><D86/><U77/><E77/><V76/>" ++
  t_ "<F76/><W14/><G3/><T132/><D132/><U32/><E68/><AGARI ba=""0,0"" hai=""20,25,30,44,46,62,67,68,88,90,91"" m=""49227"" machi=""68"" ten=""30,2000,0"" yaku=""19,1,54,1"" doraHai=""8"" who=""0"" fromWho=""1"" sc=""250,20,90,-2" ++
  t_ "0,250,0,410,0"" /><INIT seed=""2,0,0,0,2,30"" ten=""270,70,250,410"" oya=""2"" hai0=""44,72,68,38,25,108,134,86,8,29,34,119,126"" hai1=""103,36,70,7,39,20,40,42,60,17,98,109,63"" hai2=""56,35,57,117,131,2,71,28,6" ++
  t_ "6,106,84,4,6"" hai3=""127,116,112,135,32,33,90,93,87,99,13,125,52""/><V49/><F117/><W91/><G135/><T104/><RYUUKYOKU type=""yao9"" ba=""0,0"" sc=""270,0,70,0,250,0,410,0"" hai0=""8,25,29,34,38,44,68,72,86,104,108,1" ++
  t_ "19,126,134"" /><INIT seed=""2,1,0,5,4,92"" ten=""270,70,250,410"" oya=""2"" hai0=""135,82,110,25,77,10,73,16,115,79,106,59,15"" hai1=""120,87,90,12,49,81,88,24,33,70,28,89,53"" hai2=""118,128,20,101,17,23,14,11,1" ++
  t_ "04,131,37,121,96"" hai3=""67,94,56,103,58,62,64,95,40,6,75,46,63""/><V9/><F118/><W119/><G119/><T74/><D110/><U72/><E70/><V47/><F121/><W108/><G108/><T51/><D135/><U97/><E120/><V112/><F112/><W22/><G75/><T127" ++
  t_ "/><D127/><U32/><E32/><V50/><F37/><W123/><G123/><T43/><D115/><U91/><E72/><V99/><F23/><W86/><G6/><T122/><D106/><U19/><E89/><V71/><F71/><W68/><G68/><T55/><D122/><U113/><E113/><V4/><F99/><W29/><G86/><T44/" ++
  t_ "><D25/><U48/><E48/><V45/><F9/><W111/><G111/><T124/><D124/><U35/><E35/><V100/><F100/><W66/><G66/><T78/><REACH who=""0"" step=""1""/><D73/><REACH who=""0"" ten=""260,70,250,410"" step=""2""/><U1/><E1/><V114/><F11" ++
  t_ "4/><W126/><G126/><T69/><D69/><U13/><E13/><V2/><REACH who=""2"" step=""1""/><F45/><REACH who=""2"" ten=""260,70,240,410"" step=""2""/><W83/><G46/><T125/><D125/><U42/><E42/><AGARI ba=""1,2"" hai=""2,4,11,14,17,20,42" ++
  t_ ",47,50,96,101,104,128,131"" machi=""42"" ten=""40,7700,0"" yaku=""1,1,2,1,52,1,53,0"" doraHai=""92"" doraHaiUra=""52"" who=""2"" fromWho=""1"" sc=""260,0,70,-80,240,100,410,0"" owari=""260,-14.0,-10,-51.0,340,14.0,410," ++
  t_ "51.0"" /></mjloggm>".
(** tests/2018110809gm-00b9-0000-00a79b89.xml. *)
Definition text_2018110809 : text :=
  t_ "<mjloggm ver=""2.3""><SHUFFLE seed=""mt19937ar-sha512-n288-base64,cXjPEmql9SV2Tu5z2g94s2dpe2apKDTKb0I1OKt5BImZcw8TecdvidWAkBr5y1WXZQwFZdn2b2Fjncd/x4mXmxb7I+2ZhAHm4S5DVng6KKz5jHc1mmgFgn3jmxTmKgC+IcTtytW34" ++
  t_ "YOlpc+wM5skCNE2IsT2rfEbFx7vmWbvG1QzDATJvMBV85WYKkN1LXJlHM751F0p4DR3/GXxvJML4nWP5y49UidrhZFTGK8Jg+i3H5xVbKM95QnpcIz4ZXGdIFkyzEmGTGxfEQ6inBE4LmGxDNjUQe59AyD1MRxM/CVsYRL7uVt5TAF3oStT8VG5DV4AezFF0d3Yj6EKN" ++
  t_ "eKaCl3GJR+0Ikru8rkHWjGWZUJcRJsZwqtYjwHq3zepI0OELoeBV7GWtAV0/RRlZHozryL//qRWbuGccHxwXq4K3xqwTM7NQ7zTOKutgF4MmhdW5O8lRuvK95TM1NGcTV5JgVO+b0rLjN7Z9Jbogoa1krHv899Qtg7sNN3XyDnjNnmU9Gr+fqF4Ksg28+fxuFNXzkNbh" ++
  t_ "r3dAfWzY3X8uUDzAfYV0QRqbZbAOLmaxN1dqaX9ny+J6hG113B14iAV8DZipQUB9QA2sdLjhaWTM/Pl7ljkElb4uNzTbNe+6KnwT3fP1T7Dd0HufPR1ak28YXPAcomkZnf63H7+Sjg42Am8SK9i4CszVwIm3fHiW5YYAVriWxzfRGGUrTtVp7F16VkY5CjWqj7RGg60w" ++
  t_ "xyXNGJ5KoerzSdQmdZOqBeXTTVtHl7oHUmtmnobSiWmFrsdCyv0BvdvIIdChYxQCpAr47ymaUCV4dtU3IHaVxJojOdmCNa6VHOTlUL/+oI3yTFIKhJu3t+hQ9fKvs1jrBT+Oq8yKdPubXVRPbZXX5iXqKz+j4sg5yKlL9UO1jPG9PPqVX0EQ8Ze99Abvz7vNgSMTsZUa" ++
  t_ "jvUv4YCE9c8i+fxvsHwMqKuRzXCL8gMmWfBvWB4jE7QBZk/IkrwFPN3lAeEKKGYzxGl7HvtWG/sSiDIYlCu0yrlCe8m1BB+FRdV6npLUAo794ZZt9KIX9GGXR02iV7hZG3pjCBRiHsfXz6H6ECiQISrw6qYrCIVk4YkwaNbzIxKkc2LS3n0lEW3K/4ymoK+a4Jz7bjzd" ++
  t_ "xIBqng36npUxhcVQJ3iZS/9bZiyx5kmT3TE+JNkjAjPJ1l00327tGu+PBK16NgDH590WhtG3qjtpabNDi6Sy8lFKr5YEEPpDY3lSQfmuP8NLA9PnYpkjE8gHnBUn3UHThEVHCWcb1ZKIsNG3NrHEuqe/p6bMPozMKeXMxB5bBvOx9E2YGDtb+yfaVskOV/4ogIPh6glI" ++
  t_ "+cEALQuLLk2qaZ32/VgrGnzJ76RxK9+bXZnj+fOlQPQYmilm717/1pmKcOK/tDv8Kwx560n//wMCMHhjot9hJXbTSg1irtaeJQYnDfsUaJ6wURjZkpCPA82W5AMLm8w1AvjpLRoyd/lkVU2xON2zgNhktChfpvwA7Iq0uZIfVdq/k5eL7Fn+JAHPURVjCdzos+Kaqph1" ++
  t_ "An0hmPm6sjXLzLhfcWq7pymwsHyfAOWMYLZuCDcLn4U95C+/sLjUwXck0H5hlwBPcDzPHUIymj0c1o/jLIPyiNxg7xAAIv+CYTtPfxKDbJTWWk6n9ko/8lji+eVFx9EzOMgRjOCp06qmZGtG7WWSOFUFJTEyh+LRFljYw1XxSxTYoHfki1ngxuBVqXSn4vi5JDLBqQT3" ++
  t_ "39RTihqSCoM8O524NrtccUdvkV+r1JVH/HGUvTmEIibop3+6XdcRA+pDvbqVNT+8VDIUkeIjFF/q89ArUzkRrGq+93y1vcVyf3u05zJN+mzY4UOuTP+hvpx18/CKC1qG/6oOc6NOXw/1hpnNoWZo1mNTswXg+sWEXaCfqNnD1nYnFmgeagfIf2JiO2lw3EdwzuluPXbf" ++
  t_ "DXn7Akji4u5IWUI016T7OHijpildA4n/o65u6SWxbgCatl8yBwSO0+g7D8dbU7+VfQ9Gjrrv3KTdGwJe1KPg4eVeZHOXYHTLoPm7uGsKuaroFtCzgydMoTrpta0J7u/UoIXye3MIAsqpFKpAHvMr9ZmUcow8UxPSKwQjygZ1rhrqjut1zldceZPjzmDqcmI2fRE5feLN" ++
  t_ "cPa+ynO6eVTpq03pGRQ9IyltKI+8I2mOMWyKfCKyBdPeuc+czsDkn7hNUaEshWqr04NXhQNdFrAuoaL+E8Uj8HPAGxIpQe7eu8dUDeIhPaOuRlaMsjpk8q/Ibox3BG0/mD9SI1W4aC6b6cnoibEUyi4+82N83POQ+CPVXa3CWLVmVqYV+3nErzU9Cb5X4mbS0CqIpa7u" ++
  t_ "ras7TNWBBjm/CUEvrm+WjnFZnWzTZ+jQpBKFKRIjeEp3FjFhbuCjfcnrFYrcL0+cBsdLf28h48QHLC87fKgd9tsBWcT3hkxgHHPzV8AYMkVs9hvuSqK98UhHZrzmAwlFHAy3CwMsYpjYeB9lPqB5VO6ZfSY+xsfv/R0qmcET5Bhi+GWEmeLML0M/Qkpd1xB8n8q/WNUN" ++
  t_ "YEgIhMXuORe4t7atSt4zWmE89V/XOYYaR5AwmRlofK/zyPz0UJegJ09VP4f8hqJ30boueiiW0XwKMa/oLESEy6sura2Dsm90+E44FhAI9Q6gvxae0C/LX+qaPFBYfi6nKNH/omkogrwTzIMqujYayKcFa+JGjm66GOdn2s6UN01qx3gr0LJsa+n9TMgOKDMKhthI6o/W" ++
  t_ "EXTvpbyUhI+9q4rZR2CIhpl2Y8+J7pArgG/BXis+asOHBy7bCmSKdZKAzTcuVMJ447KWNHYN+6HUCuU8lHxaR+Y4UxPEUXOKiKpnmX+DgOCVAqArQFuMXNHIEfsdvgkEoG8TwB3Ab+fAU7BqKVh8YhYR1VjwpRY+SQDwTsUIbLvK8KGdgSXqSvw1MfXCBYCZ/vk3af/U" ++
  t_ "7K07F6HkSPzqFcTowQX21mckD2XXmBiQQwlpTRey6ONHyeC/2i9QM9+HVXOFnSMMm58cMJ6J5X+y+uq8D+XYc6wYxWxVAVuBTs/a5r10JBza1lEGf91DkafHRp9eQY3kCPE5WuY5XItU/unk4wWge3ZVUd59EQzH58nXIuniHI7Vzs/HWVhed6EuDkWTXZRmm0fozupQ" ++
  t_ "boCrI07m0jfE9gOEuEthllhcYv216O0azu3lekwm609kVYNLdnXWvqtrOWgtWZbPfoj76EBTccxCbzoHO33gstiBPTMA9ahxEaTolfPNI4zG2MmSJRQLt68XQIHvZsh2O8p3S4kYMtD0h8EfG/ghSVJ/U7ayMFq48Y0xufd40hqSVcdCb11MhtWdsyYCQJD"" ref=""""/" ++
  t_ "><GO type=""185"" lobby=""0""/><UN n0=""%E3%81%82%E3%81%9F%E3%82%89%E3%81%AA%E3%81%84%E3%81%A7%EF%BC%81"" n1=""%E3%83%AA%E3%82%B3%E3%83%BB%E3%83%90%E3%83%B3%E3%83%87%E3%83%A9%E3%82%B9"" n2=""%E4%BC%8F%E5%B1%8B" ++
  t_ """ n3="""" dan=""17,17,16,0"" rate=""2185.17,2205.31,2183.33,1500.00"" sx=""M,M,M,C""/><TAIKYOKU oya=""0""/><INIT seed=""0,0,0,5,5,3"" ten=""350,350,350,0"" oya=""0"" hai0=""109,133,57,87,64,67,121,80,60,43,101,70,75"" " ++
  t_ "hai1=""1,65,74,89,134,115,34,73,66,88,103,48,123"" hai2=""44,83,35,59,135,36,113,117,39,33,99,122,56"" hai3=""""/><T129/><N who=""0"" m=""31008"" /><T69/><D129/><U110/><N who=""1"" m=""31520"" /><U131/><E1/><V78/><" ++
  t_ "N who=""2"" m=""31264"" /><V114/><F117/><T77/><D133/><U132/><E131/><V38/><F135/><T49/><D109/><U108/><E103/><V106/><F44/><T55/><D101/><U118/><E48/><V91/><F59/><T72/><D43/><U47/><E47/><V76/><F56/><T127/><D1" ++
  t_ "27/><U63/><E63/><AGARI ba=""0,0"" hai=""49,55,57,60,63,64,67,69,70,72,75,77,80,87"" m=""31008"" machi=""63"" ten=""40,3900,0"" yaku=""9,1,52,1"" doraHai=""3"" who=""0"" fromWho=""1"" sc=""350,39,350,-39,350,0,0,0"" /><IN" ++
  t_ "IT seed=""0,1,0,0,1,64"" ten=""389,311,350,0"" oya=""0"" hai0=""122,55,32,135,112,33,65,58,107,72,38,53,75"" hai1=""35,70,77,96,76,63,67,121,115,111,71,103,79"" hai2=""74,117,101,80,36,47,119,99,86,50,56,81,66"" " ++
  t_ "hai3=""""/><T57/><N who=""0"" m=""31264"" /><T94/><D107/><U45/><N who=""1"" m=""31008"" /><U85/><E35/><V48/><F74/><T110/><D38/><U69/><E111/><V44/><F36/><T129/><D112/><U108/><E108/><V42/><F56/><T105/><D105/><U11" ++
  t_ "6/><E116/><N who=""2"" m=""44619"" /><F66/><T118/><D118/><U84/><E115/><V97/><F101/><T92/><D65/><U126/><E45/><N who=""2"" m=""17483"" /><F42/><T37/><D37/><U102/><E126/><V132/><F132/><T39/><D39/><U52/><E52/><V1" ++
  t_ "00/><F100/><T43/><D110/><U51/><E51/><N who=""2"" m=""19499"" /><F86/><T113/><D113/><U78/><E103/><V114/><F114/><T123/><N who=""0"" m=""31520"" /><T124/><D43/><U125/><E125/><V54/><F54/><T41/><D41/><U104/><N who" ++
  t_ "=""1"" m=""19456"" /><DORA hai=""133"" /><U106/><REACH who=""1"" step=""1""/><E106/><REACH who=""1"" ten=""389,301,350,0"" step=""2""/><V61/><F61/><T82/><D135/><U130/><E130/><V68/><F81/><T83/><D124/><U88/><E88/><V46/" ++
  t_ "><F80/><T73/><D73/><U95/><E95/><V87/><F46/><T131/><AGARI ba=""1,1"" hai=""32,33,53,55,57,58,72,75,82,83,92,94,129,131"" m=""31520,31264"" machi=""131"" ten=""25,8000,1"" yaku=""0,1,22,2,52,2"" doraHai=""64,133"" wh" ++
  t_ "o=""0"" fromWho=""0"" sc=""389,92,301,-41,350,-41,0,0"" /><INIT seed=""0,2,0,5,3,107"" ten=""481,260,309,0"" oya=""0"" hai0=""120,47,72,46,134,116,51,105,65,48,38,101,2"" hai1=""106,98,42,61,70,88,118,91,86,60,94,32" ++
  t_ ",1"" hai2=""93,113,114,110,96,115,63,119,129,111,74,92,64"" hai3=""""/><T75/><N who=""0"" m=""30752"" /><T54/><D116/><U85/><E118/><V109/><F63/><T55/><D2/><U50/><E1/><V128/><F64/><T77/><D134/><U39/><E39/><V99/>" ++
  t_ "<F74/><T76/><D65/><U45/><E32/><V95/><REACH who=""2"" step=""1""/><F119/><REACH who=""2"" ten=""481,260,299,0"" step=""2""/><T124/><D124/><U80/><E70/><V41/><F41/><T84/><D38/><U131/><E131/><AGARI ba=""2,1"" hai=""92" ++
  t_ ",93,95,96,99,109,110,111,113,114,115,128,129,131"" machi=""131"" ten=""60,32000,5"" yaku=""1,1,29,2,28,2,14,1,19,1,34,3,53,3"" doraHai=""107"" doraHaiUra=""90"" who=""2"" fromWho=""1"" sc=""481,0,260,-324,299,334,0,0" ++
  t_ """ owari=""481,8.0,-64,-66.0,633,58.0,0,0.0"" /></mjloggm>".
Definition test_texts : list text := [text_2009060321; text_2009100718; text_2018010604; text_2018011723; text_2018020105; text_2018110809].
