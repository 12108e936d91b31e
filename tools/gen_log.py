"""Turn the records of the mutation runs (out.jsonl files, made outside /verif) into seeded/LOG.jsonl.
usage: gen_log.py OUT.jsonl [HAND.jsonl]   (run from /verif)"""
import json,sys
F={'Mem':'C04 C05 C18','Par':'C17','Tensor':'C01 C02 C03 C04 C05 C06','TensorOps':'C07 C10 C11 C12 C15 C16','Act':'C22 C23 C25','Mat':'C27 C67','Layer':'C27 C29 C33','Conv':'C49 C50 C52','Misc':'C53 C54','Net':'C33 C43','Trainer':'C36 C38 C40 C41','World':'C18','SaveLoad':'C47 C48','GradCheck':'C57'}
Dn={'shape_asserts':'C01','chunk_loop':'C01','mk_shape':'C01','assign_shape':'C02','zero_cells':'C03','copy_loop':'C04 C05','t_copy':'C04','t_copy_assign':'C05','t_move_ctor':'C04','fill_loop':'C03','t_ones':'C03','t_eyes':'C03',
'binop':'C07 C08 C09','op_add':'C07','op_sub':'C07','op_mul':'C07','op_div':'C07','unop':'C10','op_addv':'C10','op_subv':'C10','op_mulv':'C10','op_divv':'C10','op_neg':'C10','op_exp':'C10','op_pow':'C10','mask1':'C11','mask2':'C11','eqop':'C11','op_equal':'C11','eqopv':'C11','op_equalv':'C11','argop':'C15','op_argmax':'C15','op_argmin':'C15','accum':'C16','reduce_sum_all':'C16','reduce_mean_all':'C16','redop':'C16','op_reduce_mean':'C16','dot':'C12','mm_iter':'C12 C17','mm_rows':'C12','matmul':'C12 C13',
'f_lecun':'C24 C25','f_lecungrad':'C24','f_sigmoidgrad':'C22 C26',
'mmul':'C27','mt':'C29','mdot':'C27','submat':'C29 C38','set_submat':'C49','sub_ok':'C38 C49','mrow':'C40 C71','mrows':'C38 C71','mcols':'C67','insert_rows':'C38','insert_cols':'C27','shed_col':'C29','reshape':'C49','accu':'C35','sum1':'C29','repmat':'C35 C29','flipud':'C49','fliplr':'C49','mmax':'C53','mmin':'C53','addcol':'C27','addcols':'C67','addrow':'C67','addrows':'C67','exponential':'C67','with_bias':'C27','mscal':'C33','msub':'C33','madd':'C29','mschur':'C29','mdiv':'C29',
'set_W':'C33 C73','set_lrate':'C36 C55 C73','set_lambda':'C73','rowmajor':'C46','randominit_w':'C46','randominit':'C46','layer_default':'C73','layer_new':'C73','layer_param_default':'C73','layer_copy':'C43','layer_assign':'C43','forwardprop':'C27','reg_grad':'C29','backprop':'C29','update_with':'C33','update':'C33','input_new':'C73','input_copy':'C45','input_forward':'C27 C73','output_assign':'C43 C73','output_backprop':'C29','row_argmax':'C34','argmax':'C34','getcostval':'C65','quad_cost':'C35 C65','ce_cost':'C35 C65','softmax_P':'C29 C34','sm_cost':'C35 C65','rowsD':'C35','divs':'C29',
'conv_new':'C49','conv_assign':'C51','conv_copy':'C51','convolve':'C49 C50','conv_forward':'C49 C50','conv_backprop':'C59','maxpool_new':'C52','maxpool_assign':'C52','maxval':'C52','do_maxpool':'C52','maxpool_forward':'C52','meanpool_new':'C52','meanval':'C52','do_meanpool':'C52','meanpool_forward':'C52',
'norm_new':'C53','norm_assign':'C53','norm_forward':'C53','norm_backprop':'C53','soft_new':'C54','soft_assign':'C54','softmax_rows':'C54','h_update':'C33','net_assign':'C43','net_update_with':'C33 C41',
'trainer_new':'C36','trainer_new_decay':'C36','trainer_assign':'C44','tick':'C36','decay':'C36','feeddata_cost':'C58 C61','sgd_feeddata':'C40','sgd_feeddata_cost':'C40 C61','batch_assign':'C44','wrap_rows':'C38','batch_loop':'C38 C37','batch_feeddata':'C38 C37','batch_feeddata_cost':'C39','zero_like':'C41 C69','initmomentum':'C41','momentum_assign':'C44','mom_hidden':'C41 C42','momentum_feeddata':'C41','momentum_feeddata_cost':'C58',
'is_ws':'C48','is_digit':'C47','is_sign':'C47','is_exp':'C47','take_body':'C48','take_num':'C48','read1':'C47 C48','mat_of':'C47','load_mat':'C47 C48','rowlist':'C47','net_save':'C47','load_step':'C47','net_load':'C47 C48','gc_new':'C57','issame':'C57'}
# survivors: what was concluded
S={('Tensor','t_copy_assign'):('none: the assertion just before makes the two counts equal, so the edited program behaves the same',[]),
('Mat','inb'):('out-of-range access (C67)',['C67_access']),('Mat','mcols'):('C67 (ranges of columns)',['C67_blocks']),
('Mat','mget'):('C67 (out-of-range access throws)',['C67_access']),('Mat','mset'):('C67 (out-of-range access throws)',['C67_access']),('Mat','mrow'):('C71 (missing labels throw)',['C71_sgd']),('Mat','mrows'):('C71',['C67_blocks']),('Mat','shed_col'):('C67',['C67_flips']),('Mat','mmin'):('C53/C67',['C67_extrema']),('Mat','mmax'):('C53/C67',['C67_extrema']),('Conv','conv_new'):('none for the base stddev (randominit overwrites the weights); C49 for the rates',['C49_new']),('Conv','conv_copy'):('C51',['C51_copy']),('Conv','convolve'):('C50',['C50_negative_stride']),('Conv','maxpool_assign'):('C51',['C51_maxpool_assign']),('Conv','set_a'):('C74',['C74_programs']),('Mat','flipud'):('none for square filters, the only ones the code flips; C67 for other matrices',['C67_flips']),('Mat','fliplr'):('none for square filters, the only ones the code flips; C67 for other matrices',['C67_flips'])}
out=[]
for l in open(sys.argv[1]):
    x=json.loads(l)
    if x['res'] in('stillborn','other'): continue
    d={'definition':x['file']+'.'+x['defn'],'edit':f"{x['old']} -> {x['new']} in: {' '.join(x['ctx'].split())}",'claim_broken':Dn.get(x['defn'],F[x['file']])}
    if x['res']=='killed': d['theorems_failed']=[x['where']]; d['theorems_tightened']=[]
    else:
        c,t=S.get((x['file'],x['defn']),(d['claim_broken'],['C73_*']))
        d['claim_broken']=c; d['theorems_failed']=[]; d['theorems_tightened']=t
    out.append(d)
if len(sys.argv)>2:
    for l in open(sys.argv[2]): out.append(json.loads(l))
open('seeded/LOG.jsonl','w').write(''.join(json.dumps(d)+'\n' for d in out))
print(len(out))
